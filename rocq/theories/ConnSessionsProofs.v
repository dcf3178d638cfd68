(* Specification functions over what happened, and invariants: see PropConnSessions.v. *)
From Coq Require Import List NArith Arith Bool Lia ZifyBool.
From Verif Require Import ConnSessions.
Import ListNotations.
Open Scope N_scope.

(* ---- specification: read off from the log (newest entry first) ---- *)

(* the permissions of session s on connection c, if it is active *)
Fixpoint active (dflt : perms) (l : list entry) (c : N) (s : option N) : option perms :=
  match l with
  | [] => None
  | EUp d :: r => if (d =? c) && opt_eqb s None then Some dflt else active dflt r c s
  | EDown d :: r => if d =? c then None else active dflt r c s
  | ELogin d i p :: r => if (d =? c) && opt_eqb s (Some i) then Some p else active dflt r c s
  | ELogout d i :: r => if (d =? c) && opt_eqb s (Some i) then None else active dflt r c s
  | _ :: r => active dflt r c s
  end.

(* the database and permissions of subscriber id of session s of connection c, if it has one *)
Fixpoint owned (l : list entry) (c : N) (s : option N) (id : N) : option (N * perms) :=
  match l with
  | [] => None
  | ESub d s' id' db p :: r => if key_eqb (d, s') (c, s) && (id' =? id) then Some (db, p) else owned r c s id
  | EDrop d s' id' :: r => if key_eqb (d, s') (c, s) && (id' =? id) then None else owned r c s id
  | EDown d :: r => if d =? c then None else owned r c s id
  | ELogout d i :: r => if (d =? c) && opt_eqb s (Some i) then None else owned r c s id
  | _ :: r => owned r c s id
  end.

(* whether that subscriber currently follows topic t *)
Fixpoint follows (l : list entry) (c : N) (s : option N) (id t : N) : bool :=
  match l with
  | [] => false
  | ETopic d s' id' db t' :: r => if key_eqb (d, s') (c, s) && (id' =? id) && (t' =? t) then true else follows r c s id t
  | EUntopic d s' id' db t' :: r => if key_eqb (d, s') (c, s) && (id' =? id) && (t' =? t) then false else follows r c s id t
  | ESub d s' id' _ _ :: r => if key_eqb (d, s') (c, s) && (id' =? id) then false else follows r c s id t
  | _ :: r => follows r c s id t
  end.

(* ---- lookups ---- *)
Lemma opt_eqb_eq : forall a b, opt_eqb a b = true <-> a = b.
Proof. intros [a|] [b|]; cbn [opt_eqb]; split; intros H; try discriminate; try reflexivity.
  - apply N.eqb_eq in H. congruence.
  - inversion H. apply N.eqb_refl. Qed.
Lemma key_eqb_eq : forall a b, key_eqb a b = true <-> a = b.
Proof.
  intros [c s] [d u]. unfold key_eqb. cbn [fst snd]. rewrite andb_true_iff, opt_eqb_eq, N.eqb_eq.
  split; [intros [-> ->]; reflexivity|intros H; inversion H; auto].
Qed.
Lemma key_eqb_refl : forall k, key_eqb k k = true.
Proof. intros. apply key_eqb_eq. reflexivity. Qed.
Lemma key_eqb_sym : forall a b, key_eqb a b = key_eqb b a.
Proof.
  intros a b. destruct (key_eqb a b) eqn:E.
  - apply key_eqb_eq in E. subst. symmetry. apply key_eqb_refl.
  - destruct (key_eqb b a) eqn:F; [|reflexivity]. apply key_eqb_eq in F. subst. rewrite key_eqb_refl in E. discriminate.
Qed.

Lemma fs_cons : forall k k' x l, find_session k ((k', x) :: l) = if key_eqb k' k then Some x else find_session k l.
Proof. intros. unfold find_session. cbn [find fst]. destruct (key_eqb k' k); reflexivity. Qed.

Lemma fs_remove : forall k k' l, find_session k (remove_session k' l) = if key_eqb k' k then None else find_session k l.
Proof.
  intros k k' l. induction l as [|[j x] l IH]; cbn [remove_session filter fst].
  - destruct (key_eqb k' k); reflexivity.
  - destruct (key_eqb j k') eqn:E; cbn [negb].
    + apply key_eqb_eq in E. subst j. fold (remove_session k' l). rewrite IH, fs_cons. destruct (key_eqb k' k); reflexivity.
    + rewrite !fs_cons. fold (remove_session k' l). rewrite IH. destruct (key_eqb j k) eqn:F; [|reflexivity].
      apply key_eqb_eq in F. subst j. rewrite key_eqb_sym, E. reflexivity.
Qed.

Lemma fs_on : forall k k' f l, find_session k (on_session k' f l) =
  if key_eqb k' k then option_map f (find_session k l) else find_session k l.
Proof.
  intros k k' f l. induction l as [|[j x] l IH]; cbn [on_session map fst snd].
  - destruct (key_eqb k' k); reflexivity.
  - fold (on_session k' f l). destruct (key_eqb j k') eqn:E; rewrite !fs_cons, IH.
    + apply key_eqb_eq in E. subst j. destruct (key_eqb k' k); reflexivity.
    + destruct (key_eqb j k) eqn:F; [|reflexivity]. apply key_eqb_eq in F. subst j. rewrite key_eqb_sym, E. reflexivity.
Qed.

Lemma fs_conn : forall c s d l, find_session (c, s) (filter (fun e => negb (fst (fst e) =? d)) l) =
  if d =? c then None else find_session (c, s) l.
Proof.
  intros c s d l. induction l as [|[[j u] x] l IH]; cbn [filter fst].
  - destruct (d =? c); reflexivity.
  - destruct (j =? d) eqn:E; cbn [negb].
    + apply N.eqb_eq in E. subst j. rewrite IH, fs_cons. unfold key_eqb. cbn [fst snd]. destruct (d =? c); reflexivity.
    + rewrite !fs_cons, IH. unfold key_eqb. cbn [fst snd]. destruct (j =? c) eqn:F; cbn [andb]; [|reflexivity].
      apply N.eqb_eq in F. subst j. rewrite N.eqb_sym, E. reflexivity.
Qed.

Lemma fs_in : forall k x l, find_session k l = Some x -> In (k, x) l.
Proof.
  intros k x l H. unfold find_session in H. destruct (find _ l) as [[j y]|] eqn:F; [|discriminate].
  inversion H; subst. apply find_some in F. destruct F as [F1 F2]. cbn in F2. apply key_eqb_eq in F2. subst. exact F1.
Qed.
Lemma fs_unique : forall k x l, NoDup (map fst l) -> In (k, x) l -> find_session k l = Some x.
Proof.
  intros k x l. induction l as [|[j y] l IH]; intros D H; [destruct H|].
  rewrite fs_cons. inversion D as [|? ? D1 D2]; subst. destruct H as [H|H].
  - inversion H; subst. rewrite key_eqb_refl. reflexivity.
  - destruct (key_eqb j k) eqn:E; [|auto]. apply key_eqb_eq in E. subst. exfalso. apply D1.
    apply (in_map fst) in H. exact H.
Qed.

(* ---- agreement with the log ---- *)
Definition agrees (dflt : perms) (se : list (key * csession)) (lg : list entry) : Prop :=
  forall c s,
  match find_session (c, s) se with
  | None => active dflt lg c s = None /\ forall id, owned lg c s id = None
  | Some x => active dflt lg c s = Some (c_perms x) /\
      forall id, match find_sub id x with
                 | None => owned lg c s id = None
                 | Some b => owned lg c s id = Some (s_db b, s_perms b) /\ forall t, mem t (s_topics b) = follows lg c s id t
                 end
  end.

Definition unique_ids (se : list (key * csession)) : list N := flat_map (fun e => map s_id (c_subs (snd e))) se.

Record wf (dflt : perms) (st : state) : Prop := mkwf {
  wf_agrees : agrees dflt (sessions st) (log st);
  wf_keys : NoDup (map fst (sessions st));
  wf_ids : NoDup (unique_ids (sessions st));
  wf_last : forall id, In id (unique_ids (sessions st)) -> id <= last_sub st;
  wf_sid : forall c i, In (c, Some i) (map fst (sessions st)) -> i <= last_sid st;
  wf_logins : forall c i p, In (ELogin c i p) (log st) -> i <= last_sid st;
  wf_once : forall l1 c i p l2, log st = l1 ++ ELogin c i p :: l2 -> forall c' p', ~ In (ELogin c' i p') l2;
  wf_table : forall i q, In (i, q) (table st) -> i <= last_sid st;
  wf_tperm : forall i q c x, In (i, q) (table st) -> find_session (c, Some i) (sessions st) = Some x -> q = c_perms x;
  wf_tperm2 : forall i q j, In (i, q) (table st) -> In j (pending st) -> j_sid j = Some i -> q = j_perms j;
  wf_psid : forall j i, In j (pending st) -> j_sid j = Some i -> i <= last_sid st;
  wf_subs : forall c s id db p, In (ESub c s id db p) (log st) -> id <= last_sub st;
  wf_none : forall c s x, find_session (c, s) (sessions st) = Some x -> exists y, find_session (c, None) (sessions st) = Some y
}.

Lemma owned_in : forall l c s id db p, owned l c s id = Some (db, p) -> In (ESub c s id db p) l.
Proof.
  induction l as [|e l IH]; cbn [owned]; intros c s id db p H; [discriminate|].
  destruct e; try (right; eapply IH; eassumption);
  try (match type of H with (if ?b then _ else _) = _ => destruct b eqn:E end; try discriminate; [..|right; eapply IH; eassumption]).
  apply andb_true_iff in E. destruct E as [E1 E2]. apply key_eqb_eq in E1. apply N.eqb_eq in E2.
  inversion E1; inversion H; subst. left. reflexivity.
Qed.

Lemma find_sub_id : forall id x b, find_sub id x = Some b -> s_id b = id /\ In b (c_subs x).
Proof. intros id x b H. apply find_some in H. destruct H as [H1 H2]. apply N.eqb_eq in H2. auto. Qed.

Lemma ids_in : forall k x b se, In (k, x) se -> In b (c_subs x) -> In (s_id b) (unique_ids se).
Proof.
  intros. unfold unique_ids. apply in_flat_map. exists (k, x). split; [assumption|]. cbn [snd]. now apply in_map.
Qed.

Lemma unique_ids_remove : forall (f : key * csession -> bool) se, NoDup (unique_ids se) ->
  NoDup (unique_ids (filter f se)) /\ (forall i, In i (unique_ids (filter f se)) -> In i (unique_ids se)).
Proof.
  intros f se. induction se as [|e se IH]; cbn [filter unique_ids flat_map]; intros D; [auto|].
  fold (unique_ids se) in D. 
  assert (D2 : NoDup (unique_ids se)).
  { clear -D. induction (map s_id (c_subs (snd e))) as [|a l IHl]; [exact D|]. inversion D; subst. auto. }
  destruct (IH D2) as [A B].
  assert (B' : forall i, In i (unique_ids (filter f se)) -> In i (map s_id (c_subs (snd e)) ++ unique_ids se))
    by (intros; apply in_or_app; right; apply B; assumption).
  destruct (f e); [|auto]. cbn [unique_ids flat_map]. fold (unique_ids (filter f se)). fold (unique_ids se). split.
  - clear -A B D. revert D. induction (map s_id (c_subs (snd e))) as [|a l IHl]; cbn [app]; intros D; [exact A|].
    inversion D as [|? ? D1 D2]; subst. constructor; [|auto].
    intros C. apply D1. apply in_app_or in C. apply in_or_app. destruct C; auto.
  - intros i I. apply in_app_or in I. apply in_or_app. destruct I; auto.
Qed.

Lemma keys_filter : forall (f : key * csession -> bool) se, NoDup (map fst se) -> NoDup (map fst (filter f se)).
Proof.
  intros f se. induction se as [|e se IH]; cbn [filter map]; intros D; [constructor|].
  inversion D as [|? ? D1 D2]; subst. destruct (f e); [|auto]. cbn [map]. constructor; [|auto].
  intros C. apply D1. apply in_map_iff in C. destruct C as (y & E & C). apply filter_In in C. apply in_map_iff. exists y. tauto.
Qed.
Lemma keys_filter_in : forall (f : key * csession -> bool) se k, In k (map fst (filter f se)) -> In k (map fst se).
Proof.
  intros f se k C. apply in_map_iff in C. destruct C as (y & E & C). apply filter_In in C. apply in_map_iff. exists y. tauto.
Qed.
Lemma keys_on : forall k f se, map fst (on_session k f se) = map fst se.
Proof.
  intros. unfold on_session. rewrite map_map. apply map_ext. intros e. destruct (key_eqb (fst e) k); reflexivity.
Qed.

(* set_topics keeps ids *)
Lemma set_topics_ids : forall id f x, map s_id (c_subs (set_topics id f x)) = map s_id (c_subs x).
Proof.
  intros. unfold set_topics. cbn [c_subs]. rewrite map_map. apply map_ext. intros b. destruct (s_id b =? id); reflexivity.
Qed.
Lemma set_topics_find : forall id f x id', find_sub id' (set_topics id f x) =
  option_map (fun b => if s_id b =? id then mkSub (s_id b) (s_db b) (s_perms b) (f (s_topics b)) else b) (find_sub id' x).
Proof.
  intros. unfold find_sub, set_topics. cbn [c_subs]. induction (c_subs x) as [|b l IH]; cbn [map find]; [reflexivity|].
  assert (E : s_id (if s_id b =? id then mkSub (s_id b) (s_db b) (s_perms b) (f (s_topics b)) else b) = s_id b) by (destruct (s_id b =? id); reflexivity).
  rewrite E. destruct (s_id b =? id'); [reflexivity|apply IH].
Qed.

Lemma ids_on_same : forall k f se, (forall x, map s_id (c_subs (f x)) = map s_id (c_subs x)) ->
  unique_ids (on_session k f se) = unique_ids se.
Proof.
  intros k f se H. unfold unique_ids, on_session. induction se as [|e se IH]; cbn [map flat_map]; [reflexivity|].
  rewrite IH. destruct (key_eqb (fst e) k); cbn [snd]; [rewrite H|]; reflexivity.
Qed.

Lemma mem_add : forall t u l, mem u (if mem t l then l else t :: l) = (t =? u) || mem u l.
Proof.
  intros t u l. destruct (mem t l) eqn:E.
  - destruct (t =? u) eqn:F; [|reflexivity]. apply N.eqb_eq in F. subst. rewrite E. reflexivity.
  - unfold mem. cbn [existsb]. rewrite (N.eqb_sym u t). reflexivity.
Qed.
Lemma mem_del : forall t u l, mem u (filter (fun v => negb (v =? t)) l) = negb (t =? u) && mem u l.
Proof.
  intros t u l. unfold mem. induction l as [|v l IH]; cbn [filter existsb]; [rewrite andb_false_r; reflexivity|].
  destruct (v =? t) eqn:E; cbn [negb existsb].
  - rewrite IH. apply N.eqb_eq in E. subst v. rewrite (N.eqb_sym u t). destruct (t =? u); reflexivity.
  - rewrite IH. destruct (t =? u) eqn:F; cbn [negb andb]; [|reflexivity].
    apply N.eqb_eq in F. subst u. rewrite (N.eqb_sym t v), E. reflexivity.
Qed.

(* ---- each recorded entry keeps the agreement ---- *)
Lemma key_none_some : forall c i, key_eqb (c, None) (c, Some i) = false.
Proof. intros. unfold key_eqb. cbn. apply andb_false_r. Qed.

Lemma agrees_up : forall dflt se lg d, agrees dflt se lg -> find_session (d, None) se = None ->
  agrees dflt (((d, None), mkCS dflt []) :: se) (EUp d :: lg).
Proof.
  intros dflt se lg d A H c s. rewrite fs_cons. unfold key_eqb. cbn [fst snd active owned].
  specialize (A c s). destruct (d =? c) eqn:E; cbn [andb]; [|exact A].
  apply N.eqb_eq in E. subst d. destruct s as [i|]; cbn [opt_eqb]; [exact A|].
  rewrite H in A. split; [reflexivity|]. intros id. cbn. apply A.
Qed.

Lemma agrees_down : forall dflt se lg d, agrees dflt se lg ->
  agrees dflt (filter (fun e => negb (fst (fst e) =? d)) se) (EDown d :: lg).
Proof.
  intros dflt se lg d A c s. rewrite fs_conn. cbn [active owned]. specialize (A c s).
  destruct (d =? c); [auto|exact A].
Qed.

Lemma agrees_login : forall dflt se lg d i p, agrees dflt se lg -> find_session (d, Some i) se = None ->
  agrees dflt (((d, Some i), mkCS p []) :: remove_session (d, Some i) se) (ELogin d i p :: lg).
Proof.
  intros dflt se lg d i p A H c s. rewrite fs_cons, fs_remove. unfold key_eqb. cbn [fst snd active owned].
  specialize (A c s). destruct (d =? c) eqn:E; cbn [andb]; [|exact A].
  apply N.eqb_eq in E. subst d. destruct s as [j|]; cbn [opt_eqb]; [|exact A].
  rewrite (N.eqb_sym j i). destruct (i =? j) eqn:F; [|exact A]. apply N.eqb_eq in F. subst j.
  rewrite H in A. split; [reflexivity|]. intros id. cbn. apply A.
Qed.

Lemma agrees_logout : forall dflt se lg d i, agrees dflt se lg ->
  agrees dflt (remove_session (d, Some i) se) (ELogout d i :: lg).
Proof.
  intros dflt se lg d i A c s. rewrite fs_remove. unfold key_eqb. cbn [fst snd active owned].
  specialize (A c s). destruct (d =? c) eqn:E; cbn [andb]; [|exact A].
  destruct s as [j|]; cbn [opt_eqb]; [|exact A]. rewrite (N.eqb_sym j i). destruct (i =? j); [auto|exact A].
Qed.

Lemma agrees_sub : forall dflt se lg d u id db p x, agrees dflt se lg -> find_session (d, u) se = Some x ->
  agrees dflt (on_session (d, u) (fun x => mkCS (c_perms x) (mkSub id db p [] :: c_subs x)) se) (ESub d u id db p :: lg).
Proof.
  intros dflt se lg d u id db p x A H c s. rewrite fs_on. cbn [active]. specialize (A c s).
  destruct (key_eqb (d, u) (c, s)) eqn:K.
  - apply key_eqb_eq in K. inversion K; subst d u. rewrite H in *. cbn [option_map c_perms]. destruct A as [A B].
    split; [exact A|]. intros id'. cbn [owned follows]. rewrite key_eqb_refl. cbn [andb].
    unfold find_sub. cbn [c_subs find s_id]. destruct (id =? id') eqn:E; [split; reflexivity|].
    specialize (B id'). unfold find_sub in B. exact B.
  - cbn [owned follows]. rewrite K. cbn [andb]. exact A.
Qed.

Lemma agrees_topic : forall dflt se lg d u id db t x b, agrees dflt se lg -> find_session (d, u) se = Some x -> find_sub id x = Some b ->
  agrees dflt (on_session (d, u) (set_topics id (fun l => if mem t l then l else t :: l)) se) (ETopic d u id db t :: lg).
Proof.
  intros dflt se lg d u id db t x b A H F c s. rewrite fs_on. cbn [active]. specialize (A c s).
  destruct (key_eqb (d, u) (c, s)) eqn:K.
  - apply key_eqb_eq in K. inversion K; subst d u. rewrite H in *. cbn [option_map]. destruct A as [A B].
    split; [exact A|]. intros id'. cbn [owned follows]. rewrite key_eqb_refl. cbn [andb].
    rewrite set_topics_find. specialize (B id'). destruct (find_sub id' x) as [b'|] eqn:F'; cbn [option_map]; [|exact B].
    destruct (find_sub_id _ _ _ F') as [I _]. destruct B as [B1 B2]. rewrite I. rewrite (N.eqb_sym id id').
    destruct (id' =? id) eqn:E; cbn [andb s_db s_perms s_topics]; [|auto]. split; [exact B1|]. intros v. rewrite mem_add, B2.
    destruct (t =? v); reflexivity.
  - cbn [owned follows]. rewrite K. cbn [andb]. exact A.
Qed.

Lemma agrees_untopic : forall dflt se lg d u id db t x b, agrees dflt se lg -> find_session (d, u) se = Some x -> find_sub id x = Some b ->
  agrees dflt (on_session (d, u) (set_topics id (filter (fun v => negb (v =? t)))) se) (EUntopic d u id db t :: lg).
Proof.
  intros dflt se lg d u id db t x b A H F c s. rewrite fs_on. cbn [active]. specialize (A c s).
  destruct (key_eqb (d, u) (c, s)) eqn:K.
  - apply key_eqb_eq in K. inversion K; subst d u. rewrite H in *. cbn [option_map]. destruct A as [A B].
    split; [exact A|]. intros id'. cbn [owned follows]. rewrite key_eqb_refl. cbn [andb].
    rewrite set_topics_find. specialize (B id'). destruct (find_sub id' x) as [b'|] eqn:F'; cbn [option_map]; [|exact B].
    destruct (find_sub_id _ _ _ F') as [I _]. destruct B as [B1 B2]. rewrite I. rewrite (N.eqb_sym id id').
    destruct (id' =? id) eqn:E; cbn [andb s_db s_perms s_topics]; [|auto]. split; [exact B1|]. intros v. rewrite mem_del, B2.
    destruct (t =? v); reflexivity.
  - cbn [owned follows]. rewrite K. cbn [andb]. exact A.
Qed.

Lemma find_sub_filter : forall id id' x, find_sub id' (mkCS (c_perms x) (filter (fun b => negb (s_id b =? id)) (c_subs x))) =
  if id =? id' then None else find_sub id' x.
Proof.
  intros. unfold find_sub. cbn [c_subs]. induction (c_subs x) as [|b l IH]; cbn [filter find]; [destruct (id =? id'); reflexivity|].
  destruct (s_id b =? id) eqn:E; cbn [negb find].
  - rewrite IH. apply N.eqb_eq in E. rewrite E. destruct (id =? id'); reflexivity.
  - rewrite IH. destruct (s_id b =? id') eqn:F; [|reflexivity]. destruct (id =? id') eqn:G; [|reflexivity]. lia.
Qed.

Lemma agrees_drop : forall dflt se lg d u id x b, agrees dflt se lg -> find_session (d, u) se = Some x -> find_sub id x = Some b ->
  agrees dflt (on_session (d, u) (fun x => mkCS (c_perms x) (filter (fun b => negb (s_id b =? id)) (c_subs x))) se) (EDrop d u id :: lg).
Proof.
  intros dflt se lg d u id x b A H F c s. rewrite fs_on. cbn [active]. specialize (A c s).
  destruct (key_eqb (d, u) (c, s)) eqn:K.
  - apply key_eqb_eq in K. inversion K; subst d u. rewrite H in *. cbn [option_map]. destruct A as [A B].
    split; [exact A|]. intros id'. cbn [owned follows]. rewrite key_eqb_refl. cbn [andb].
    rewrite find_sub_filter. destruct (id =? id'); [reflexivity|apply B].
  - cbn [owned follows]. rewrite K. cbn [andb]. exact A.
Qed.

(* subscriber ids under the session operations *)
Lemma ids_on_add : forall k db p id se, NoDup (map fst se) -> NoDup (unique_ids se) -> ~ In id (unique_ids se) ->
  NoDup (unique_ids (on_session k (fun x => mkCS (c_perms x) (mkSub id db p [] :: c_subs x)) se)).
Proof.
  intros k db p id se K D H.
  assert (Q : forall i, In i (unique_ids (on_session k (fun x => mkCS (c_perms x) (mkSub id db p [] :: c_subs x)) se)) -> i = id \/ In i (unique_ids se)).
  { clear. induction se as [|e se IH]; intros i; cbn [on_session map unique_ids flat_map]; [auto|]. intros I. apply in_app_or in I.
    destruct I as [I|I].
    - destruct (key_eqb (fst e) k); cbn [snd c_subs map s_id] in I; [destruct I as [I|I]; [auto|]|]; right; apply in_or_app; auto.
    - apply IH in I. destruct I as [I|I]; [auto|]. right. apply in_or_app. auto. }
  revert K D H Q. induction se as [|e se IH]; cbn [on_session map unique_ids flat_map]; intros K D H Q; [constructor|].
  fold (unique_ids se) in *. fold (on_session k (fun x => mkCS (c_perms x) (mkSub id db p [] :: c_subs x)) se).
  fold (unique_ids (on_session k (fun x => mkCS (c_perms x) (mkSub id db p [] :: c_subs x)) se)).
  inversion K as [|? ? K1 K2]; subst. destruct (key_eqb (fst e) k) eqn:E.
  - cbn [snd c_subs map s_id app].
    assert (R : on_session k (fun x => mkCS (c_perms x) (mkSub id db p [] :: c_subs x)) se = se).
    { apply key_eqb_eq in E. subst k. clear -K1. unfold on_session. rewrite <- (map_id se) at 2. apply map_ext_in. intros a Ia.
      destruct (key_eqb (fst a) (fst e)) eqn:E; [|reflexivity]. apply key_eqb_eq in E. exfalso. apply K1. rewrite <- E. now apply in_map. }
    rewrite R. constructor; assumption.
  - assert (D2 : NoDup (unique_ids se)) by (clear -D; induction (map s_id (c_subs (snd e))) as [|a l IHl]; [exact D|inversion D; subst; auto]).
    assert (Q' : forall i, In i (unique_ids (on_session k (fun x => mkCS (c_perms x) (mkSub id db p [] :: c_subs x)) se)) -> i = id \/ In i (unique_ids se)).
    { clear. induction se as [|e se IH]; intros i; cbn [on_session map unique_ids flat_map]; [auto|]. intros I. apply in_app_or in I.
      destruct I as [I|I].
      - destruct (key_eqb (fst e) k); cbn [snd c_subs map s_id] in I; [destruct I as [I|I]; [auto|]|]; right; apply in_or_app; auto.
      - apply IH in I. destruct I as [I|I]; [auto|]. right. apply in_or_app. auto. }
    assert (H2 : ~ In id (unique_ids se)) by (intros C; apply H; apply in_or_app; auto).
    specialize (IH K2 D2 H2 Q'). clear Q K K1 K2.
    revert D H. induction (map s_id (c_subs (snd e))) as [|a l IHl]; cbn [app]; intros D H; [exact IH|].
    inversion D as [|? ? D1 D3]; subst. constructor.
    + intros C. apply in_app_or in C. destruct C as [C|C]; [apply D1; apply in_or_app; auto|].
      apply Q' in C. destruct C as [->|C]; [apply H; left; reflexivity|apply D1; apply in_or_app; auto].
    + apply IHl; [exact D3|]. intros C. apply H. right. exact C.
Qed.
Lemma ids_on_add_in : forall k db p id se i,
  In i (unique_ids (on_session k (fun x => mkCS (c_perms x) (mkSub id db p [] :: c_subs x)) se)) -> i = id \/ In i (unique_ids se).
Proof.
  intros k db p id. induction se as [|e se IH]; intros i; cbn [on_session map unique_ids flat_map]; [auto|]. intros I. apply in_app_or in I.
  destruct I as [I|I].
  - destruct (key_eqb (fst e) k); cbn [snd c_subs map s_id] in I; [destruct I as [I|I]; [auto|]|]; right; apply in_or_app; auto.
  - apply IH in I. destruct I as [I|I]; [auto|]. right. apply in_or_app. auto.
Qed.

Lemma ids_on_drop : forall k id se, NoDup (unique_ids se) ->
  NoDup (unique_ids (on_session k (fun x => mkCS (c_perms x) (filter (fun b => negb (s_id b =? id)) (c_subs x))) se)) /\
  (forall i, In i (unique_ids (on_session k (fun x => mkCS (c_perms x) (filter (fun b => negb (s_id b =? id)) (c_subs x))) se)) -> In i (unique_ids se)).
Proof.
  intros k id se. induction se as [|e se IH]; cbn [on_session map unique_ids flat_map]; intros D; [auto|].
  fold (unique_ids se) in *. fold (on_session k (fun x => mkCS (c_perms x) (filter (fun b => negb (s_id b =? id)) (c_subs x))) se).
  fold (unique_ids (on_session k (fun x => mkCS (c_perms x) (filter (fun b => negb (s_id b =? id)) (c_subs x))) se)).
  assert (D2 : NoDup (unique_ids se)) by (clear -D; induction (map s_id (c_subs (snd e))) as [|a l IHl]; [exact D|inversion D; subst; auto]).
  destruct (IH D2) as [A B]. clear IH.
  set (W := unique_ids (on_session k _ se)) in *. clearbody W.
  assert (F : forall l, NoDup (map s_id l ++ unique_ids se) -> NoDup (map s_id (filter (fun b => negb (s_id b =? id)) l) ++ W) /\
     NoDup (map s_id l ++ W) /\ forall i, In i (map s_id (filter (fun b => negb (s_id b =? id)) l)) -> In i (map s_id l)).
  { clear -A B. induction l as [|b l IH]; cbn [map filter app]; intros D; [auto|]. inversion D as [|? ? D1 D2]; subst.
    destruct (IH D2) as (X & Y & Z). 
    assert (N1 : ~ In (s_id b) (map s_id l ++ W)) by (intros C; apply D1; apply in_app_or in C; apply in_or_app; destruct C; auto).
    repeat apply conj.
    - destruct (negb (s_id b =? id)); [|exact X]. cbn [map app]. constructor; [|exact X].
      intros C. apply N1. apply in_app_or in C. apply in_or_app. destruct C; auto.
    - constructor; assumption.
    - intros i. destruct (negb (s_id b =? id)); cbn [map In]; intros; [|auto]. destruct H; auto. }
  destruct (F (c_subs (snd e)) D) as (X & Y & Z).
  destruct (key_eqb (fst e) k); cbn [snd c_subs]; split; auto; intros i I; apply in_app_or in I; apply in_or_app; destruct I; auto.
Qed.

Lemma fs_none_key : forall k se, find_session k se = None -> ~ In k (map fst se).
Proof.
  intros k se. induction se as [|[j x] se IH]; intros H; [auto|]. rewrite fs_cons in H.
  destruct (key_eqb j k) eqn:E; [discriminate|]. cbn [map fst]. intros [C|C]; [|exact (IH H C)].
  subst j. rewrite key_eqb_refl in E. discriminate.
Qed.
Lemma fs_key : forall k x se, find_session k se = Some x -> In k (map fst se).
Proof. intros k x se H. apply fs_in in H. apply (in_map fst) in H. exact H. Qed.

Lemma wf_init : forall dflt, wf dflt init.
Proof.
  intros. constructor; cbn; try (intros; contradiction); try constructor; try discriminate; auto.
  intros l1 c i p l2 H. destruct l1; discriminate.
Qed.

Lemma once_other : forall lg e, (forall c i p, e <> ELogin c i p) ->
  (forall l1 c i p l2, lg = l1 ++ ELogin c i p :: l2 -> forall c' p', ~ In (ELogin c' i p') l2) ->
  (forall l1 c i p l2, e :: lg = l1 ++ ELogin c i p :: l2 -> forall c' p', ~ In (ELogin c' i p') l2).
Proof.
  intros lg e H O l1 c i p l2 E. destruct l1 as [|a l1]; cbn [app] in E; inversion E; subst.
  - exfalso. eapply H. reflexivity.
  - eapply O. reflexivity.
Qed.

Lemma wf_session_map : forall dflt st k f lg' lb' x,
  wf dflt st -> (forall x, c_perms (f x) = c_perms x) -> find_session k (sessions st) = Some x ->
  agrees dflt (on_session k f (sessions st)) lg' ->
  NoDup (unique_ids (on_session k f (sessions st))) ->
  (forall i, In i (unique_ids (on_session k f (sessions st))) -> i <= lb') -> last_sub st <= lb' ->
  (forall c i p, In (ELogin c i p) lg' -> In (ELogin c i p) (log st)) ->
  (forall l1 c i p l2, lg' = l1 ++ ELogin c i p :: l2 -> forall c' p', ~ In (ELogin c' i p') l2) ->
  (forall c s id db p, In (ESub c s id db p) lg' -> id <= lb') ->
  wf dflt (mkSt (on_session k f (sessions st)) (table st) (last_sid st) lb' (pending st) (sent st) lg').
Proof.
  intros dflt [se tb ls lb pe sn lg] k f lg' lb' x [W1 W2 W3 W4 W5 W6 W7 W8 W9 W10 W11 W12 W13] F K A D L LB LG LO LS.
  cbn [sessions table last_sid last_sub pending sent log] in *.
  constructor; cbn [sessions table last_sid last_sub pending sent log]; try assumption.
  - rewrite keys_on. exact W2.
  - intros c i. rewrite keys_on. apply W5.
  - intros c i p H. eapply W6, LG, H.
  - intros i q c y I H. rewrite fs_on in H. destruct (key_eqb k (c, Some i)); [|eapply W9; eassumption].
    destruct (find_session (c, Some i) se) as [y0|] eqn:Fy; [|discriminate]. inversion H; subst. rewrite F. eapply W9; eassumption.
  - intros c s y H. rewrite fs_on in H. rewrite fs_on.
    assert (exists y0, find_session (c, s) se = Some y0) as [y0 Y]
      by (destruct (key_eqb k (c, s)); destruct (find_session (c, s) se); try discriminate; eauto).
    destruct (W13 _ _ _ Y) as [z Z]. rewrite Z. destruct (key_eqb k (c, None)); cbn; eauto.
Qed.

Lemma wf_handle : forall dflt st c s p cmd grant, wf dflt st -> wf dflt (fst (handle st c s p cmd grant)).
Proof.
  intros dflt st c s p cmd grant W. pose proof W as W'.
  destruct W as [W1 W2 W3 W4 W5 W6 W7 W8 W9 W10 W11 W12 W13].
  destruct st as [se tb ls lb pe sn lg]. cbn [sessions table last_sid last_sub pending sent log] in *.
  destruct cmd as [|i|db|id t|id t|id|db t m|a]; cbn [handle].
  - destruct grant as [q|]; [|exact W'].
    assert (TB : forall i q0, In (i, q0) ((ls + 1, q) :: tb) -> i <= ls + 1).
    { intros i q0 [H|H]; [inversion H; lia|apply W8 in H; lia]. }
    assert (P2 : forall i q0 j, In (i, q0) ((ls + 1, q) :: tb) -> In j pe -> j_sid j = Some i -> q0 = j_perms j).
    { intros i q0 j [H|H] J S; [|eauto]. inversion H; subst. apply (W11 _ _ J) in S. lia. }
    destruct (find_session (c, None) se) as [y|] eqn:E; cbn [fst].
    + assert (NF : find_session (c, Some (ls + 1)) se = None).
      { destruct (find_session (c, Some (ls + 1)) se) eqn:F; [|reflexivity]. apply fs_key, W5 in F. lia. }
      constructor; cbn [sessions table last_sid last_sub pending sent log]; auto.
      * apply agrees_login; assumption.
      * cbn [map fst]. constructor; [|apply keys_filter; exact W2]. intros C. apply keys_filter_in in C. apply W5 in C. lia.
      * cbn [unique_ids flat_map snd c_subs map app]. apply unique_ids_remove. exact W3.
      * cbn [unique_ids flat_map snd c_subs map app]. intros id I. apply W4. eapply unique_ids_remove; eassumption.
      * intros d i. cbn [map fst]. intros [H|H]; [inversion H; lia|]. apply keys_filter_in, W5 in H. lia.
      * intros d i q0 [H|H]; [inversion H; lia|apply W6 in H; lia].
      * intros l1 d i q0 l2 H. destruct l1 as [|a l1]; cbn [app] in H; inversion H; subst.
        -- intros d' q' C. apply W6 in C. lia.
        -- eapply W7. reflexivity.
      * intros i q0 d x [H|H] G.
        -- inversion H; subst i q0. rewrite fs_cons, fs_remove in G. destruct (key_eqb (c, Some (ls + 1)) (d, Some (ls + 1))) eqn:K.
           ++ inversion G. reflexivity.
           ++ apply fs_key, W5 in G. lia.
        -- rewrite fs_cons, fs_remove in G. destruct (key_eqb (c, Some (ls + 1)) (d, Some i)) eqn:K.
           ++ apply key_eqb_eq in K. inversion K; subst. apply W8 in H. lia.
           ++ eapply W9; eassumption.
      * intros j i J S. apply (W11 _ _ J) in S. lia.
      * intros d v id db p0 [H|H]; [discriminate|eauto].
      * intros d v x H. rewrite fs_cons, fs_remove in H. rewrite fs_cons, fs_remove.
        destruct (key_eqb (c, Some (ls + 1)) (d, v)) eqn:K.
        -- apply key_eqb_eq in K. inversion K; subst. replace (key_eqb (d, Some (ls+1)) (d, None)) with false by (unfold key_eqb; cbn; now rewrite andb_false_r). eauto.
        -- destruct (W13 _ _ _ H) as [z Z]. replace (key_eqb (c, Some (ls+1)) (d, None)) with false by (unfold key_eqb; cbn; now rewrite andb_false_r). eauto.
    + constructor; cbn [sessions table last_sid last_sub pending sent log]; auto.
      * intros d i H. apply W5 in H. lia.
      * intros d i q0 H. apply W6 in H. lia.
      * intros i q0 d x [H|H] G; [|eauto]. inversion H; subst. apply fs_key, W5 in G. lia.
      * intros j i J S. apply (W11 _ _ J) in S. lia.
  - cbn [fst]. constructor; cbn [sessions table last_sid last_sub pending sent log]; auto.
    + apply agrees_logout; assumption.
    + apply keys_filter. exact W2.
    + apply unique_ids_remove. exact W3.
    + intros id I. apply W4. eapply unique_ids_remove; eassumption.
    + intros d j H. apply keys_filter_in in H. eauto.
    + intros d j q [H|H]; [discriminate|eauto].
    + apply once_other; [discriminate|exact W7].
    + intros j q d x H G. rewrite fs_remove in G. destruct (key_eqb _ _); [discriminate|eauto].
    + intros d v id db q [H|H]; [discriminate|eauto].
    + intros d v x H. rewrite fs_remove in *. destruct (key_eqb (c, Some i) (d, v)); [discriminate|].
      replace (key_eqb (c, Some i) (d, None)) with false by (unfold key_eqb; cbn; now rewrite andb_false_r). eauto.
  - destruct (p (ACreate db)); [|exact W']. destruct (find_session (c, s) se) as [x|] eqn:E; cbn [fst].
    + apply (wf_session_map dflt (mkSt se tb ls lb pe sn lg) (c, s) _ _ (lb + 1) x W'); cbn [sessions last_sub log]; auto.
      * eapply agrees_sub; eassumption.
      * apply ids_on_add; auto. intros C. apply W4 in C. lia.
      * intros i I. apply ids_on_add_in in I. destruct I as [->|I]; [lia|]. apply W4 in I. lia.
      * lia.
      * intros d j q [H|H]; [discriminate|auto].
      * apply once_other; [discriminate|exact W7].
      * intros d v id db' q [H|H]; [inversion H; lia|apply W12 in H; lia].
    + constructor; cbn [sessions table last_sid last_sub pending sent log]; auto.
      * intros i I. apply W4 in I. lia.
      * intros d v id db' q H. apply W12 in H. lia.
  - destruct (find_session (c, s) se) as [x|] eqn:E; [|exact W']. destruct (find_sub id x) as [b|] eqn:F; [|exact W'].
    destruct (s_perms b _); [|exact W']. cbn [fst].
    apply (wf_session_map dflt (mkSt se tb ls lb pe sn lg) (c, s) _ _ lb x W'); cbn [sessions last_sub log]; auto.
    + eapply agrees_topic; eassumption.
    + rewrite ids_on_same; [exact W3|intros; apply set_topics_ids].
    + rewrite ids_on_same; [exact W4|intros; apply set_topics_ids].
    + lia.
    + intros d j q [H|H]; [discriminate|auto].
    + apply once_other; [discriminate|exact W7].
    + intros d v id' db' q [H|H]; [discriminate|eauto].
  - destruct (find_session (c, s) se) as [x|] eqn:E; [|exact W']. destruct (find_sub id x) as [b|] eqn:F; [|exact W'].
    destruct (s_perms b _); [|exact W']. cbn [fst].
    apply (wf_session_map dflt (mkSt se tb ls lb pe sn lg) (c, s) _ _ lb x W'); cbn [sessions last_sub log]; auto.
    + eapply agrees_untopic; eassumption.
    + rewrite ids_on_same; [exact W3|intros; apply set_topics_ids].
    + rewrite ids_on_same; [exact W4|intros; apply set_topics_ids].
    + lia.
    + intros d j q [H|H]; [discriminate|auto].
    + apply once_other; [discriminate|exact W7].
    + intros d v id' db' q [H|H]; [discriminate|eauto].
  - destruct (find_session (c, s) se) as [x|] eqn:E; [|exact W']. destruct (find_sub id x) as [b|] eqn:F; [|exact W']. cbn [fst].
    apply (wf_session_map dflt (mkSt se tb ls lb pe sn lg) (c, s) _ _ lb x W'); cbn [sessions last_sub log]; auto.
    + eapply agrees_drop; eassumption.
    + apply ids_on_drop. exact W3.
    + intros i I. apply W4. eapply ids_on_drop; eassumption.
    + lia.
    + intros d j q [H|H]; [discriminate|auto].
    + apply once_other; [discriminate|exact W7].
    + intros d v id' db' q [H|H]; [discriminate|eauto].
  - destruct (p (APublish db t)); [|exact W']. cbn [fst].
    constructor; cbn [sessions table last_sid last_sub pending sent log]; assumption.
  - destruct (p a); exact W'.
Qed.

Lemma in_remove_nth : forall {A} k (l : list A) x, In x (remove_nth k l) -> In x l.
Proof.
  induction k as [|k IH]; intros [|a l] x; cbn [remove_nth In]; auto. intros [H|H]; auto.
Qed.

Lemma wf_step : forall dflt st ev, wf dflt st -> wf dflt (fst (step dflt st ev)).
Proof.
  intros dflt st ev W. pose proof W as W'.
  destruct W as [W1 W2 W3 W4 W5 W6 W7 W8 W9 W10 W11 W12 W13].
  destruct ev as [c|c|c s cmd|k grant|i]; cbn [step].
  - destruct (find_session (c, None) (sessions st)) as [x|] eqn:E; cbn [fst]; [exact W'|].
    constructor; cbn [sessions table last_sid last_sub pending sent log]; auto.
    + apply agrees_up; assumption.
    + cbn [map fst]. constructor; [apply fs_none_key; exact E|exact W2].
    + cbn [map fst]. intros d i [H|H]; [discriminate|eauto].
    + intros d j q [H|H]; [discriminate|eauto].
    + apply once_other; [discriminate|exact W7].
    + intros j q d x H G. rewrite fs_cons in G. unfold key_eqb in G. cbn [fst snd opt_eqb] in G. rewrite andb_false_r in G. eauto.
    + intros d v id db q [H|H]; [discriminate|eauto].
    + intros d v x H. rewrite fs_cons in *. destruct (key_eqb (c, None) (d, None)) eqn:K; [eauto|].
      destruct (key_eqb (c, None) (d, v)) eqn:K2; [|eauto]. apply key_eqb_eq in K2. inversion K2; subst. rewrite key_eqb_refl in K. discriminate.
  - cbn [fst]. constructor; cbn [sessions table last_sid last_sub pending sent log]; auto.
    + apply agrees_down; assumption.
    + apply keys_filter. exact W2.
    + apply unique_ids_remove. exact W3.
    + intros id I. apply W4. eapply unique_ids_remove; eassumption.
    + intros d j H. apply keys_filter_in in H. eauto.
    + intros d j q [H|H]; [discriminate|eauto].
    + apply once_other; [discriminate|exact W7].
    + intros j q d x H G. rewrite fs_conn in G. destruct (c =? d); [discriminate|eauto].
    + intros d v id db q [H|H]; [discriminate|eauto].
    + intros d v x H. rewrite fs_conn in *. destruct (c =? d); [discriminate|eauto].
  - destruct (find_session (c, None) (sessions st)) as [y|] eqn:E; cbn [fst]; [|exact W'].
    constructor; cbn [sessions table last_sid last_sub pending sent log]; auto.
    + intros i q j I J S. apply in_app_or in J. destruct J as [J|[J|[]]]; [eauto|].
      destruct (find_session (c, s) (sessions st)) as [x|] eqn:F; subst j; cbn [j_sid j_perms] in *; [|discriminate].
      subst s. eauto.
    + intros j i J S. apply in_app_or in J. destruct J as [J|[J|[]]]; [eauto|].
      destruct (find_session (c, s) (sessions st)) as [x|] eqn:F; subst j; cbn [j_sid] in *; [|discriminate].
      subst s. apply fs_key, W5 in F. exact F.
  - destruct (nth_error (pending st) k) as [j|] eqn:E; [|exact W'].
    assert (W2' : wf dflt (mkSt (sessions st) (table st) (last_sid st) (last_sub st) (remove_nth k (pending st)) (sent st) (log st))).
    { constructor; cbn [sessions table last_sid last_sub pending sent log]; auto.
      - intros i q j0 I J. apply in_remove_nth in J. eauto.
      - intros j0 i J. apply in_remove_nth in J. eauto. }
    destruct (assume (table st) (j_sid j) (j_perms j)) as [p|]; [|exact W2'].
    pose proof (wf_handle dflt _ (j_conn j) (j_sid j) p (j_cmd j) grant W2') as H.
    destruct (handle _ _ _ _ _ _) as [st2 r]. exact H.
  - cbn [fst]. constructor; cbn [sessions table last_sid last_sub pending sent log]; auto.
    + intros j q H. apply filter_In in H. destruct H. eauto.
    + intros j q d x H. apply filter_In in H. destruct H. eauto.
    + intros j q d H. apply filter_In in H. destruct H. eauto.
Qed.

Lemma wf_run : forall dflt h st, wf dflt st -> wf dflt (run dflt st h).
Proof. induction h as [|ev h IH]; intros st W; cbn [run]; [exact W|]. apply IH, wf_step, W. Qed.
Lemma wf_reach : forall dflt h, wf dflt (run dflt init h).
Proof. intros. apply wf_run, wf_init. Qed.
