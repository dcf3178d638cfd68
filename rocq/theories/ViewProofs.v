From Verif Require Import Base Key KeyPrefix Tree View.
From Coq Require Import Permutation.
Local Open Scope N_scope.

(* ---------- vocabulary ---------- *)
Fixpoint find_map (id : bytes) (l : list mapping) : option mapping :=
  match l with [] => None | m :: r => if bytes_eqb id (m_id m) then Some m else find_map id r end.
(* the last emission of a document in a list *)
Fixpoint last_em (id : bytes) (l : list emission) : option emission :=
  match l with
  | [] => None
  | e :: r => match last_em id r with
              | Some x => Some x
              | None => if bytes_eqb id (h_id (em_src e)) then Some e else None
              end
  end.
Definition at_key (t : tree entry) (k : bytes) : list mapping :=
  match t_get k t with Some e => e_maps e | None => [] end.
Definition ids (l : list mapping) : list bytes := map m_id l.

(* reduce is implemented for all inputs or for none *)
Definition uniform (vd : vdef) : Prop :=
  (forall l, vd_reduce vd l = Fail ReduceUnimplemented) \/ (forall l, vd_reduce vd l <> Fail ReduceUnimplemented).
Definition reduced_ok (vd : vdef) (k : bytes) (e : entry) : Prop :=
  vd_reduce vd (pairs k (e_maps e)) = Fail ReduceUnimplemented \/ vd_reduce vd (pairs k (e_maps e)) = Done (e_reduced e).

(* internal consistency of the trees of a view *)
Record vs_ok (vd : vdef) (vs : vstate) : Prop := {
  ok_wf_entries : t_wf (vs_entries vs);
  ok_wf_docmap : t_wf (vs_docmap vs);
  ok_wf_invalid : t_wf (vs_invalid vs);
  ok_nonempty : forall k e, t_get k (vs_entries vs) = Some e -> e_maps e <> [];
  ok_nodup : forall k, NoDup (ids (at_key (vs_entries vs) k));
  ok_docmap : forall id k, In id (ids (at_key (vs_entries vs) k)) <->
                exists ks, t_get id (vs_docmap vs) = Some ks /\ In k ks;
  ok_unique : is_unique (vd_policy vd) = true -> forall k, (length (at_key (vs_entries vs) k) <= 1)%nat;
  ok_reduced : uniform vd -> forall k e, t_get k (vs_entries vs) = Some e -> reduced_ok vd k e }.

(* ---------- lists of mappings ---------- *)
Lemma mem_In k l : mem k l = true <-> In k l.
Proof.
  unfold mem. rewrite existsb_exists. split.
  - intros (x & I & E). apply bytes_eqb_spec in E. subst. exact I.
  - intros I. exists k. split; [exact I|apply bytes_eqb_refl].
Qed.
Lemma mem_false k l : mem k l = false <-> ~ In k l.
Proof. rewrite <- mem_In. destruct (mem k l); split; congruence. Qed.

Lemma find_none id l : find_map id l = None <-> ~ In id (ids l).
Proof.
  induction l as [|m r IH]; cbn [find_map ids map In]; [intuition|].
  destruct (bytes_eqb id (m_id m)) eqn:E.
  - apply bytes_eqb_spec in E. subst. split; [discriminate|intuition].
  - apply bytes_eqb_neq in E. rewrite IH. unfold ids. intuition.
Qed.
Lemma find_some_In id l m : find_map id l = Some m -> In m l /\ m_id m = id.
Proof.
  induction l as [|x r IH]; cbn [find_map]; [discriminate|].
  destruct (bytes_eqb id (m_id x)) eqn:E.
  - apply bytes_eqb_spec in E. injection 1 as ->. split; [left; reflexivity|congruence].
  - intros H. destruct (IH H). split; [right|]; assumption.
Qed.
Lemma find_In id l : In id (ids l) <-> exists m, find_map id l = Some m.
Proof.
  destruct (find_map id l) eqn:E.
  - split; [eauto|]. intros _. apply find_some_In in E. destruct E as [I <-]. apply in_map. exact I.
  - apply find_none in E. split; [contradiction|intros [m H]; discriminate].
Qed.
Lemma In_find l m : NoDup (ids l) -> In m l -> find_map (m_id m) l = Some m.
Proof.
  induction l as [|x r IH]; intros N I; [destruct I|]. inversion_clear N as [|? ? H1 H2]. cbn [find_map].
  destruct I as [->|I]; [rewrite bytes_eqb_refl; reflexivity|].
  destruct (bytes_eqb (m_id m) (m_id x)) eqn:E; [|apply IH; assumption].
  apply bytes_eqb_spec in E. exfalso. apply H1. unfold ids. rewrite <- E. apply in_map. exact I.
Qed.

Lemma find_put id src v l : find_map id (put_mapping src v l) =
  if bytes_eqb id (h_id src) then Some (mk_map src v) else find_map id l.
Proof.
  induction l as [|m r IH]; cbn [put_mapping find_map].
  - change (m_id (mk_map src v)) with (h_id src). destruct (bytes_eqb id (h_id src)); reflexivity.
  - destruct (bytes_eqb (m_id m) (h_id src)) eqn:E; cbn [find_map].
    + change (m_id (mk_map src v)) with (h_id src). apply bytes_eqb_spec in E. rewrite E.
      destruct (bytes_eqb id (h_id src)); reflexivity.
    + rewrite IH. destruct (bytes_eqb id (m_id m)) eqn:J; [|reflexivity].
      apply bytes_eqb_spec in J. subst id. rewrite E. reflexivity.
Qed.
Lemma ids_put src v l x : In x (ids (put_mapping src v l)) <-> x = h_id src \/ In x (ids l).
Proof.
  rewrite !find_In. rewrite find_put. destruct (bytes_eqb x (h_id src)) eqn:E.
  - apply bytes_eqb_spec in E. split; [intros _; left; exact E|eauto].
  - apply bytes_eqb_neq in E. split; [intros H; right; exact H|intros [H|H]; [contradiction|exact H]].
Qed.
Lemma nodup_put src v l : NoDup (ids l) -> NoDup (ids (put_mapping src v l)).
Proof.
  induction l as [|m r IH]; intros N; cbn [put_mapping].
  - repeat constructor. intros [].
  - inversion_clear N as [|? ? H1 H2]. destruct (bytes_eqb (m_id m) (h_id src)) eqn:E.
    + apply bytes_eqb_spec in E. constructor; [|exact H2]. change (m_id (mk_map src v)) with (h_id src). rewrite <- E. exact H1.
    + constructor; [|apply IH; exact H2]. intros I. apply ids_put in I. apply bytes_eqb_neq in E.
      destruct I as [I|I]; [contradiction|]. apply H1. exact I.
Qed.
Lemma put_nonempty src v l : put_mapping src v l <> [].
Proof. destruct l as [|m r]; cbn [put_mapping]; [discriminate|]. destruct (bytes_eqb (m_id m) (h_id src)); discriminate. Qed.

Lemma add_cons vd n r l : add_mappings vd (n :: r) l =
  match l with
  | m :: _ => if is_unique (vd_policy vd) && negb (bytes_eqb (m_id m) (h_id (em_src n)))
              then Fail (UniqueKeyViolation (em_src n) (m_src m))
              else add_mappings vd r (put_mapping (em_src n) (em_value n) l)
  | [] => add_mappings vd r (put_mapping (em_src n) (em_value n) l)
  end.
Proof. reflexivity. Qed.
Lemma add_step vd n r l l' : add_mappings vd (n :: r) l = Done l' ->
  add_mappings vd r (put_mapping (em_src n) (em_value n) l) = Done l' /\
  (is_unique (vd_policy vd) = true -> forall m l0, l = m :: l0 -> m_id m = h_id (em_src n)).
Proof.
  rewrite add_cons. destruct l as [|m l0].
  - intros H. split; [exact H|]. intros _ m l0 E. discriminate.
  - destruct (is_unique (vd_policy vd)) eqn:U; cbn [andb].
    + destruct (bytes_eqb (m_id m) (h_id (em_src n))) eqn:E; cbn [negb]; [|discriminate].
      apply bytes_eqb_spec in E. intros H. split; [exact H|]. intros _ m' l0' X. injection X as <- <-. exact E.
    + intros H. split; [exact H|discriminate].
Qed.
Lemma add_spec vd news : forall l l', add_mappings vd news l = Done l' ->
  (forall id, find_map id l' = match last_em id news with
                               | Some e => Some (mk_map (em_src e) (em_value e))
                               | None => find_map id l
                               end) /\
  (NoDup (ids l) -> NoDup (ids l')) /\
  (is_unique (vd_policy vd) = true -> (length l <= 1)%nat -> (length l' <= 1)%nat) /\
  (l <> [] \/ news <> [] -> l' <> []).
Proof.
  induction news as [|n r IH]; intros l l' H.
  - cbn in H. injection H as <-. repeat split; auto. intros [X|X]; [exact X|contradiction].
  - apply add_step in H. destruct H as [H U]. destruct (IH _ _ H) as (F & N & L & E). repeat split.
    + intros id. rewrite F. cbn [last_em]. destruct (last_em id r); [reflexivity|].
      rewrite find_put. destruct (bytes_eqb id (h_id (em_src n))); reflexivity.
    + intros X. apply N, nodup_put, X.
    + intros X Y. apply L; [exact X|]. destruct l as [|m [|m2 l0]]; cbn [length] in *; try lia; cbn [put_mapping length].
      * lia.
      * rewrite (U X m [] eq_refl), bytes_eqb_refl. cbn. lia.
    + intros _. apply E. left. apply put_nonempty.
Qed.
Lemma add_no_panic vd news : forall l, add_mappings vd news l <> Panic.
Proof.
  induction news as [|n r IH]; intros l; [discriminate|]. rewrite add_cons. destruct l as [|m l0]; [apply IH|].
  destruct (is_unique (vd_policy vd) && negb (bytes_eqb (m_id m) (h_id (em_src n)))); [discriminate|apply IH].
Qed.

Lemma find_filter (p : bytes -> bool) id l : find_map id (filter (fun m => p (m_id m)) l) =
  if p id then find_map id l else None.
Proof.
  induction l as [|m r IH]; cbn [filter find_map]; [destruct (p id); reflexivity|].
  destruct (p (m_id m)) eqn:P; cbn [find_map].
  - destruct (bytes_eqb id (m_id m)) eqn:E; [|exact IH]. apply bytes_eqb_spec in E. subst. rewrite P. reflexivity.
  - rewrite IH. destruct (bytes_eqb id (m_id m)) eqn:E; [|reflexivity]. apply bytes_eqb_spec in E. subst. rewrite P. reflexivity.
Qed.
Lemma nodup_filter (p : mapping -> bool) l : NoDup (ids l) -> NoDup (ids (filter p l)).
Proof.
  induction l as [|m r IH]; intros N; [constructor|]. inversion_clear N as [|? ? H1 H2]. cbn [filter].
  destruct (p m); [|apply IH; exact H2]. constructor; [|apply IH; exact H2].
  intros I. apply H1. unfold ids in *. apply in_map_iff in I. destruct I as (x & E & I). rewrite <- E. apply in_map.
  apply filter_In in I. apply I.
Qed.
Lemma filter_le {A} (p : A -> bool) l : (length (filter p l) <= length l)%nat.
Proof. induction l as [|x r IH]; cbn; [lia|]. destruct (p x); cbn; lia. Qed.

(* ---------- one key ---------- *)
Definition old_maps (o : option entry) : list mapping := match o with Some e => e_maps e | None => [] end.
Definition dflt {A} (o : option (list A)) : list A := match o with Some l => l | None => [] end.
(* reduced value matches the mappings as far as reduce is implemented *)
Definition red_match (vd : vdef) (k : bytes) (l : list mapping) (r : bytes) : Prop :=
  vd_reduce vd (pairs k l) = Fail ReduceUnimplemented \/ vd_reduce vd (pairs k l) = Done r.

Lemma try_reduce_spec vd flag k l old r f : try_reduce vd flag k l old = Done (r, f) ->
  (flag = true -> red_match vd k l r) /\ (flag = false -> f = false /\ r = old) /\
  (f = false -> flag = true -> vd_reduce vd (pairs k l) = Fail ReduceUnimplemented).
Proof.
  unfold try_reduce, red_match. destruct flag.
  - destruct (vd_reduce vd (pairs k l)) as [x|[]|] eqn:E; intros H; try discriminate; injection H as <- <-;
      repeat split; intros; auto; try discriminate.
  - intros H. injection H as <- <-. repeat split; intros; try discriminate; auto.
Qed.

Lemma swap_spec vd flag k clean news old op f : 
  swap_entry vd flag k clean news old = Done (op, f, None) ->
  (clean <> None \/ news <> None) -> news <> Some [] ->
  NoDup (ids (old_maps old)) ->
  (is_unique (vd_policy vd) = true -> (length (old_maps old) <= 1)%nat) ->
  exists l, 
    match op with KSkip => False | KRemove => l = [] | KSet e => l = e_maps e /\ l <> [] /\
       (uniform vd -> (flag = false -> forall x, vd_reduce vd x = Fail ReduceUnimplemented) -> red_match vd k l (e_reduced e)) end /\
    NoDup (ids l) /\ (is_unique (vd_policy vd) = true -> (length l <= 1)%nat) /\
    (f = false -> flag = true -> exists x, vd_reduce vd x = Fail ReduceUnimplemented) /\ (flag = false -> f = false) /\
    forall id, find_map id l = match last_em id (dflt news) with
                               | Some e => Some (mk_map (em_src e) (em_value e))
                               | None => if mem id (dflt clean) then None else find_map id (old_maps old)
                               end.
Proof.
  intros H CN NN ND UQ. unfold swap_entry in H. cbv zeta in H.
  set (e0 := match old with Some e => e | None => mk_entry [] [] end) in *.
  assert (E0 : e_maps e0 = old_maps old) by (destruct old; reflexivity). rewrite E0 in H.
  (* the mappings after cleaning *)
  set (l1 := match clean with Some c => filter (fun m => negb (mem (m_id m) c)) (old_maps old) | None => old_maps old end).
  assert (F1 : forall id, find_map id l1 = if mem id (dflt clean) then None else find_map id (old_maps old)).
  { intros id. unfold l1. destruct clean as [c|]; cbn [dflt]; [|reflexivity].
    rewrite (find_filter (fun i => negb (mem i c))). destruct (mem id c); reflexivity. }
  assert (N1 : NoDup (ids l1)). { unfold l1. destruct clean; [apply nodup_filter|]; exact ND. }
  assert (U1 : is_unique (vd_policy vd) = true -> (length l1 <= 1)%nat).
  { intros U. unfold l1. destruct clean; [|apply UQ, U]. eapply Nat.le_trans; [apply filter_le|apply UQ, U]. }
  match type of H with match ?s with _ => _ end = _ => set (step1 := s) in * end.
  assert (S1 : (step1 = Done None /\ l1 = [] /\ news = None) \/
    (exists r1 f1, step1 = Done (Some (l1, r1, f1)) /\ (l1 = [] -> news = None -> False) /\
       (f1 = false -> flag = true -> exists x, vd_reduce vd x = Fail ReduceUnimplemented) /\ (flag = false -> f1 = false) /\
       (news = None -> flag = true -> red_match vd k l1 r1)) \/
    (exists x, step1 = Fail x) \/ step1 = Panic).
  { unfold step1, l1. destruct clean as [c|].
    - set (l := filter (fun m => negb (mem (m_id m) c)) (old_maps old)).
      destruct (match l with [] => match news with None => true | _ => false end | _ => false end) eqn:C.
      + left. destruct l; [|discriminate]. destruct news; [discriminate|]. auto.
      + right.
        destruct (try_reduce vd flag k l (e_reduced e0)) as [[r1 f1]|x|] eqn:T; [left|right; left; eexists; reflexivity|right; right; reflexivity].
        exists r1, f1. split; [reflexivity|]. apply try_reduce_spec in T. destruct T as (T1 & T2 & T3).
        split; [intros L1 L2; rewrite L1, L2 in C; discriminate|].
        split; [intros A B; eexists; apply (T3 A B)|]. split; [intros A; apply (T2 A)|]. intros _ A. apply (T1 A).
    - right. left. exists (e_reduced e0), flag. split; [reflexivity|]. destruct CN as [CN|CN]; [contradiction|].
      split; [intros _ X; contradiction|]. split; [intros A B; congruence|]. split; [auto|]. intros X; contradiction. }
  clearbody step1. destruct S1 as [(-> & L1 & ->)|[(r1 & f1 & -> & NE & FF & FG & RM)|[[x ->]| ->]]]; try discriminate.
  - injection H as <- <-. exists []. rewrite L1 in F1. split; [reflexivity|]. split; [constructor|]. split; [cbn; lia|].
    split; [intros A B; congruence|]. split; [auto|]. intros id. cbn [dflt last_em]. rewrite <- F1. reflexivity.
  - destruct news as [ns|].
    + destruct (add_mappings vd ns l1) as [l2|x|] eqn:A; try discriminate.
      destruct (try_reduce vd f1 k l2 r1) as [[r2 f2]|x|] eqn:T; try discriminate. injection H as <- <-.
      destruct (add_spec vd ns l1 l2 A) as (F & N & L & E).
      apply try_reduce_spec in T. destruct T as (T1 & T2 & T3). exists l2. cbn [e_maps e_reduced].
      split; [|split; [apply N, N1|split; [intros U; apply L; [exact U|apply U1, U]|split; [|split]]]].
      * split; [reflexivity|]. split; [apply E; right; congruence|].
        intros U G. destruct f1; [apply T1; reflexivity|]. left.
        assert (exists x, vd_reduce vd x = Fail ReduceUnimplemented).
        { destruct flag; [apply FF; reflexivity|exists []; apply G; reflexivity]. }
        destruct H as [x X]. destruct U as [U|U]; [apply U|]. exfalso. exact (U x X).
      * intros X Y. destruct f1; [|apply FF; [reflexivity|exact Y]]. eexists. apply (T3 X eq_refl).
      * intros X. specialize (FG X). subst f1. apply T2. reflexivity.
      * intros id. cbn [dflt]. rewrite F. destruct (last_em id ns); [reflexivity|]. apply F1.
    + injection H as <- <-. exists l1. cbn [e_maps e_reduced].
      split; [|split; [exact N1|split; [exact U1|split; [exact FF|split; [exact FG|]]]]].
      * split; [reflexivity|]. split; [intros X; apply NE; [exact X|reflexivity]|].
        intros U G. destruct flag; [apply RM; reflexivity|]. left. apply G. reflexivity.
      * intros id. cbn [dflt last_em]. apply F1.
Qed.
Lemma swap_err vd flag k clean news old op f x :
  swap_entry vd flag k clean news old = Done (op, f, Some x) -> True. Proof. auto. Qed.

(* ---------- all keys ---------- *)
Lemma swap_all_err vd clean news keys : forall flag e t, (exists x, swap_all vd clean news keys flag (Some e) t = Fail x) \/
  swap_all vd clean news keys flag (Some e) t = Panic.
Proof.
  induction keys as [|k ks IH]; intros flag e t; cbn [swap_all]; [left; eauto|].
  destruct (swap_entry vd flag k (clean k) (news k) (t_get k t)) as [[[op f] [x|]]|x|]; eauto.
Qed.

Definition new_at (clean : bytes -> option (list bytes)) (news : bytes -> option (list emission)) (old : tree entry)
  (k id : bytes) : option mapping :=
  match last_em id (dflt (news k)) with
  | Some e => Some (mk_map (em_src e) (em_value e))
  | None => if mem id (dflt (clean k)) then None else find_map id (at_key old k)
  end.

Record entries_ok (vd : vdef) (t : tree entry) : Prop := {
  eo_wf : t_wf t;
  eo_nonempty : forall k e, t_get k t = Some e -> e_maps e <> [];
  eo_nodup : forall k, NoDup (ids (at_key t k));
  eo_unique : is_unique (vd_policy vd) = true -> forall k, (length (at_key t k) <= 1)%nat;
  eo_reduced : uniform vd -> forall k e, t_get k t = Some e -> red_match vd k (e_maps e) (e_reduced e) }.

Lemma at_key_old t k : old_maps (t_get k t) = at_key t k. Proof. reflexivity. Qed.

Lemma swap_all_spec vd clean news keys : 
  (forall k, In k keys -> clean k <> None \/ news k <> None) -> (forall k, news k <> Some []) -> NoDup keys ->
  forall flag t t', entries_ok vd t ->
  (uniform vd -> flag = false -> forall x, vd_reduce vd x = Fail ReduceUnimplemented) ->
  swap_all vd clean news keys flag None t = Done t' ->
  entries_ok vd t' /\
  forall k id, find_map id (at_key t' k) = if mem k keys then new_at clean news t k id else find_map id (at_key t k).
Proof.
  intros CN NN. induction keys as [|k ks IH]; intros ND flag t t' OK FL H; cbn [swap_all] in H.
  - injection H as <-. split; [exact OK|]. reflexivity.
  - destruct (swap_entry vd flag k (clean k) (news k) (t_get k t)) as [[[op f] er]|x|] eqn:S; try discriminate.
    destruct er as [x|].
    { destruct (swap_all_err vd clean news ks f x (match op with KSkip => t | KSet e => t_set k e t | KRemove => t_remove k t end)) as [[y Y]|Y];
        rewrite Y in H; discriminate. }
    apply swap_spec in S; [|apply CN; left; reflexivity|apply NN|apply (eo_nodup vd t OK)|intros U; apply (eo_unique vd t OK U)].
    destruct S as (l & OP & NDl & UQ & FF & FG & FM).
    set (t1 := match op with KSkip => t | KSet e => t_set k e t | KRemove => t_remove k t end) in *.
    assert (AT : forall j, at_key t1 j = if bytes_eqb j k then l else at_key t j).
    { intros j. unfold at_key, t1. destruct op as [|e|]; [destruct OP| |].
      - destruct OP as (-> & _). rewrite get_set. destruct (bytes_eqb j k); reflexivity.
      - subst l. rewrite get_remove. destruct (bytes_eqb j k); reflexivity. }
    assert (OK1 : entries_ok vd t1).
    { constructor.
      - unfold t1. destruct op; [apply OK|apply wf_set, OK|apply wf_remove, OK].
      - intros j e. unfold t1. destruct op as [|e'|]; [destruct OP| |].
        + rewrite get_set. destruct (bytes_eqb j k); [injection 1 as <-; destruct OP as (<- & X & _); exact X|apply OK].
        + rewrite get_remove. destruct (bytes_eqb j k); [discriminate|apply OK].
      - intros j. rewrite AT. destruct (bytes_eqb j k); [exact NDl|apply OK].
      - intros U j. rewrite AT. destruct (bytes_eqb j k); [apply UQ, U|apply OK, U].
      - intros U j e. unfold t1. destruct op as [|e'|]; [destruct OP| |].
        + rewrite get_set. destruct (bytes_eqb j k) eqn:J.
          * injection 1 as <-. apply bytes_eqb_spec in J. subst j. destruct OP as (<- & _ & X). apply X; [exact U|apply FL, U].
          * apply OK, U.
        + rewrite get_remove. destruct (bytes_eqb j k); [discriminate|apply OK, U]. }
    inversion_clear ND as [|? ? NI ND'].
    destruct (IH (fun j I => CN j (or_intror I)) ND' f t1 t' OK1) as [OK' SP].
    { intros U F x. destruct flag; [|apply FL; [exact U|reflexivity]].
      destruct (FF F eq_refl) as [y Y]. destruct U as [U|U]; [apply U|]. exfalso. exact (U y Y). }
    { exact H. }
    split; [exact OK'|]. intros j id. rewrite SP. cbn [mem existsb]. fold (mem j ks).
    destruct (bytes_eqb j k) eqn:J; cbn [orb].
    + apply bytes_eqb_spec in J. subst j. apply mem_false in NI. rewrite NI. rewrite AT, bytes_eqb_refl. apply FM.
    + destruct (mem j ks); [unfold new_at|]; rewrite AT, J; reflexivity.
Qed.

(* ---------- a batch ---------- *)
Lemma key_set_In k l : In k (key_set l) <-> In k l.
Proof.
  unfold key_set. induction l as [|j r IH]; cbn [fold_right]; [reflexivity|].
  rewrite keys_set, IH. cbn [In]. intuition.
Qed.
Lemma key_set_wf l : sorted (key_set l).
Proof. unfold key_set. induction l as [|j r IH]; cbn [fold_right]; [constructor|]. apply (wf_set j tt). exact IH. Qed.

Lemma clean_of_dflt st k : dflt (clean_of st k) = map snd (filter (fun p => bytes_eqb k (fst p)) st).
Proof. unfold clean_of. destruct (filter (fun p => bytes_eqb k (fst p)) st); reflexivity. Qed.
Lemma news_of_dflt rs k : dflt (news_of rs k) = filter (fun e => bytes_eqb k (em_key e)) (flat_map snd rs).
Proof. unfold news_of. destruct (filter (fun e => bytes_eqb k (em_key e)) (flat_map snd rs)); reflexivity. Qed.
Lemma news_not_empty rs k : news_of rs k <> Some [].
Proof. unfold news_of. destruct (filter (fun e => bytes_eqb k (em_key e)) (flat_map snd rs)); discriminate. Qed.

Lemma stale_In dm rs k id : In (k, id) (stale dm rs) <->
  exists ems old, In (id, ems) rs /\ t_get id dm = Some old /\ In k old /\ ~ In k (em_keys ems).
Proof.
  unfold stale. rewrite in_flat_map. split.
  - intros ([i ems] & I & H). cbn [fst snd] in H. destruct (t_get i dm) as [old|] eqn:G; [|destruct H].
    apply in_map_iff in H. destruct H as (x & E & H). injection E as -> ->.
    apply filter_In in H. destruct H as [H1 H2]. apply negb_true_iff, mem_false in H2. exists ems, old. auto.
  - intros (ems & old & I & G & K & N). exists (id, ems). split; [exact I|]. cbn [fst snd]. rewrite G.
    apply in_map_iff. exists k. split; [reflexivity|]. apply filter_In. split; [exact K|].
    apply negb_true_iff, mem_false, N.
Qed.

(* every mapping of a document names it as its source *)
Definition own_source (rs : list mapped) : Prop :=
  forall id ems e, In (id, ems) rs -> In e ems -> h_id (em_src e) = id.

Lemma last_em_app id a b : last_em id (a ++ b) = match last_em id b with Some x => Some x | None => last_em id a end.
Proof.
  induction a as [|e a IH]; cbn [app last_em]; [destruct (last_em id b); reflexivity|].
  rewrite IH. destruct (last_em id b); reflexivity.
Qed.
Lemma last_em_none id l : (forall e, In e l -> h_id (em_src e) <> id) -> last_em id l = None.
Proof.
  induction l as [|e r IH]; intros H; [reflexivity|]. cbn [last_em]. rewrite IH by (intros; apply H; right; assumption).
  destruct (bytes_eqb id (h_id (em_src e))) eqn:E; [|reflexivity]. apply bytes_eqb_spec in E.
  exfalso. apply (H e); [left; reflexivity|congruence].
Qed.
Lemma last_em_flat rs id ems k : own_source rs -> NoDup (map fst rs) -> In (id, ems) rs ->
  last_em id (filter (fun e => bytes_eqb k (em_key e)) (flat_map snd rs)) =
  last_em id (filter (fun e => bytes_eqb k (em_key e)) ems).
Proof.
  intros OS ND I. induction rs as [|[i x] r IH]; [destruct I|]. cbn [flat_map snd]. rewrite filter_app, last_em_app.
  inversion_clear ND as [|? ? N1 N2].
  assert (OS' : own_source r) by (intros a b e H; apply OS; right; exact H).
  destruct I as [I|I].
  - injection I as -> ->. rewrite (last_em_none id (filter _ (flat_map snd r))); [reflexivity|].
    intros e H. apply filter_In in H. destruct H as [H _]. apply in_flat_map in H. destruct H as ([j y] & J & H).
    rewrite (OS' j y e J H). intros ->. apply N1. apply (in_map fst) in J. exact J.
  - rewrite (IH OS' N2 I). destruct (last_em id (filter _ ems)) eqn:L; [reflexivity|].
    apply last_em_none. intros e H. apply filter_In in H. destruct H as [H _].
    rewrite (OS i x e (or_introl eq_refl) H). intros ->. apply N1. apply (in_map fst) in I. exact I.
Qed.
Lemma last_em_flat_other rs id k : own_source rs -> ~ In id (map fst rs) ->
  last_em id (filter (fun e => bytes_eqb k (em_key e)) (flat_map snd rs)) = None.
Proof.
  intros OS N. apply last_em_none. intros e H. apply filter_In in H. destruct H as [H _].
  apply in_flat_map in H. destruct H as ([j y] & J & H). rewrite (OS j y e J H). intros ->. apply N. apply (in_map fst) in J. exact J.
Qed.
Lemma last_em_some id l : (exists x, last_em id l = Some x) <-> exists e, In e l /\ h_id (em_src e) = id.
Proof.
  split.
  - intros [x H]. revert x H. induction l as [|e r IH]; intros x; cbn [last_em]; [discriminate|].
    destruct (last_em id r) as [y|] eqn:L.
    + intros _. destruct (IH y eq_refl) as (z & I & E). exists z. split; [right; exact I|exact E].
    + destruct (bytes_eqb id (h_id (em_src e))) eqn:B; [|discriminate]. apply bytes_eqb_spec in B.
      intros _. exists e. split; [left; reflexivity|congruence].
  - intros (e & I & E). destruct (last_em id l) as [x|] eqn:L; [eauto|]. exfalso. revert I L.
    induction l as [|a r IH]; intros I L; [destruct I|]. cbn [last_em] in L. destruct (last_em id r) eqn:L2; [discriminate|].
    destruct I as [->|I]; [|apply IH; auto]. rewrite <- E, bytes_eqb_refl in L. discriminate.
Qed.

Lemma docmap_fold rs : forall dm, NoDup (map fst rs) -> (t_wf dm -> t_wf (fold_left (fun dm m => t_set (fst m) (em_keys (snd m)) dm) rs dm)) /\
  (forall id ems, In (id, ems) rs ->
     t_get id (fold_left (fun dm m => t_set (fst m) (em_keys (snd m)) dm) rs dm) = Some (em_keys ems)) /\
  (forall id, ~ In id (map fst rs) ->
     t_get id (fold_left (fun dm m => t_set (fst m) (em_keys (snd m)) dm) rs dm) = t_get id dm).
Proof.
  induction rs as [|[i x] r IH]; intros dm ND; cbn [fold_left fst snd].
  - split; [auto|]. split; [intros ? ? []|]. auto.
  - inversion_clear ND as [|? ? N1 N2]. destruct (IH (t_set i (em_keys x) dm) N2) as (W & G & O). split; [|split].
    + intros H. apply W, wf_set, H.
    + intros id ems [I|I]; [|apply G, I]. injection I as -> ->. rewrite O by exact N1. apply get_set_same.
    + intros id N. cbn [map fst] in N. rewrite O by (intros I; apply N; right; exact I).
      apply get_set_other. intros ->. apply N. left. reflexivity.
Qed.

(* what mapping a document again gives under a key *)
Definition emitted (ems : list emission) (id k : bytes) : option mapping :=
  option_map (fun e => mk_map (em_src e) (em_value e)) (last_em id (filter (fun e => bytes_eqb k (em_key e)) ems)).

Lemma in_split_mapped (rs : list mapped) id : In id (map fst rs) -> exists ems, In (id, ems) rs.
Proof. intros I. apply in_map_iff in I. destruct I as ([i e] & <- & I). exists e. exact I. Qed.
Lemma mapped_unique (rs : list mapped) id a b : NoDup (map fst rs) -> In (id, a) rs -> In (id, b) rs -> a = b.
Proof.
  induction rs as [|[i x] r IH]; intros ND A B; [destruct A|]. inversion_clear ND as [|? ? N1 N2].
  destruct A as [A|A], B as [B|B].
  - congruence.
  - injection A as -> ->. exfalso. apply N1. apply (in_map fst) in B. exact B.
  - injection B as -> ->. exfalso. apply N1. apply (in_map fst) in A. exact A.
  - apply IH; assumption.
Qed.

Lemma vs_entries_ok vd vs : vs_ok vd vs -> entries_ok vd (vs_entries vs).
Proof. intros [A B C D E F G H]. constructor; auto. Qed.

Theorem apply_batch_spec vd vs rs vs' :
  vs_ok vd vs -> own_source rs -> NoDup (map fst rs) -> apply_batch vd vs rs = Done vs' ->
  vs_ok vd vs' /\ vs_invalid vs' = vs_invalid vs /\
  (forall id ems k, In (id, ems) rs -> find_map id (at_key (vs_entries vs') k) = emitted ems id k) /\
  (forall id k, ~ In id (map fst rs) -> find_map id (at_key (vs_entries vs') k) = find_map id (at_key (vs_entries vs) k)).
Proof.
  intros OK OS ND H. unfold apply_batch in H. set (st := stale (vs_docmap vs) rs) in *.
  destruct (swap_all vd (clean_of st) (news_of rs) (batch_keys st rs) true None (vs_entries vs)) as [t|x|] eqn:S; try discriminate.
  injection H as <-. cbn [vs_entries vs_invalid].
  apply swap_all_spec in S.
  2: { intros k I. unfold batch_keys in I. rewrite key_set_In in I. apply in_app_or in I. destruct I as [I|I].
       - right. unfold news_of. unfold em_keys in I. apply in_map_iff in I. destruct I as (e & E & I).
         assert (F : In e (filter (fun e => bytes_eqb k (em_key e)) (flat_map snd rs))).
         { apply filter_In. split; [exact I|]. rewrite E. apply bytes_eqb_refl. }
         destruct (filter (fun e => bytes_eqb k (em_key e)) (flat_map snd rs)); [destruct F|discriminate].
       - left. unfold clean_of. apply in_map_iff in I. destruct I as (p & E & I).
         assert (F : In p (filter (fun p => bytes_eqb k (fst p)) st)).
         { apply filter_In. split; [exact I|]. cbn beta. rewrite <- E. apply bytes_eqb_refl. }
         destruct (filter (fun p => bytes_eqb k (fst p)) st); [destruct F|discriminate]. }
  2: apply news_not_empty.
  2: apply sorted_NoDup, key_set_wf.
  2: apply vs_entries_ok, OK.
  2: discriminate.
  destruct S as [EO SP].
  assert (IN : forall id ems k, In (id, ems) rs -> find_map id (at_key t k) = emitted ems id k).
  { intros id ems k I. rewrite SP. destruct (mem k (batch_keys st rs)) eqn:M.
    - unfold new_at, emitted. rewrite news_of_dflt, (last_em_flat rs id ems k OS ND I).
      destruct (last_em id (filter _ ems)) as [e|] eqn:L; [reflexivity|]. cbn [option_map].
      destruct (mem id (dflt (clean_of st k))) eqn:C; [reflexivity|].
      apply find_none. intros J. apply (ok_docmap vd vs OK) in J. destruct J as (ks & G & K).
      apply mem_false in C. apply C. rewrite clean_of_dflt. apply in_map_iff. exists (k, id). split; [reflexivity|].
      apply filter_In. split; [|apply bytes_eqb_refl]. apply stale_In. exists ems, ks. repeat split; auto.
      intros X. unfold em_keys in X. apply in_map_iff in X. destruct X as (e & E & X).
      assert (Y : exists x, last_em id (filter (fun e => bytes_eqb k (em_key e)) ems) = Some x).
      { apply last_em_some. exists e. split; [apply filter_In; split; [exact X|rewrite E; apply bytes_eqb_refl]|apply (OS id ems e I X)]. }
      destruct Y as [x Y]. rewrite Y in L. discriminate.
    - apply mem_false in M. unfold batch_keys in M. rewrite key_set_In in M.
      assert (NE : emitted ems id k = None).
      { unfold emitted. rewrite last_em_none; [reflexivity|]. intros e Z. apply filter_In in Z. destruct Z as [Z1 Z2].
        apply bytes_eqb_spec in Z2. intros _. apply M. apply in_or_app. left. unfold em_keys. rewrite Z2. apply in_map.
        apply in_flat_map. exists (id, ems). auto. }
      rewrite NE. apply find_none. intros J. apply (ok_docmap vd vs OK) in J. destruct J as (ks & G & K).
      apply M. apply in_or_app. right. apply in_map_iff. exists (k, id). split; [reflexivity|].
      apply stale_In. exists ems, ks. repeat split; auto. intros X. apply M. apply in_or_app. left.
      unfold em_keys in *. apply in_map_iff in X. destruct X as (e & E & X). rewrite <- E. apply in_map.
      apply in_flat_map. exists (id, ems). auto. }
  assert (OUT : forall id k, ~ In id (map fst rs) -> find_map id (at_key t k) = find_map id (at_key (vs_entries vs) k)).
  { intros id k N. rewrite SP. destruct (mem k (batch_keys st rs)); [|reflexivity].
    unfold new_at. rewrite news_of_dflt, (last_em_flat_other rs id k OS N).
    destruct (mem id (dflt (clean_of st k))) eqn:C; [|reflexivity]. exfalso.
    apply mem_In in C. rewrite clean_of_dflt in C. apply in_map_iff in C. destruct C as ([k' i'] & E & C). cbn in E. subst i'.
    apply filter_In in C. destruct C as [C _]. apply stale_In in C. destruct C as (ems & old & I & _).
    apply N. apply (in_map fst) in I. exact I. }
  destruct (docmap_fold rs (vs_docmap vs) ND) as (DW & DG & DO).
  split; [|split; [reflexivity|split; [exact IN|exact OUT]]].
  destruct EO as [E1 E2 E3 E4 E5].
  constructor; cbn [vs_entries vs_docmap vs_invalid]; auto.
  - apply DW, OK.
  - apply OK.
  - intros id k. rewrite find_In. destruct (in_dec bytes_dec id (map fst rs)) as [I|I].
    + destruct (in_split_mapped rs id I) as [ems J]. rewrite (IN id ems k J), (DG id ems J). unfold emitted.
      split.
      * intros [m M]. destruct (last_em id (filter _ ems)) as [e|] eqn:L; [|discriminate].
        assert (X : exists x, last_em id (filter (fun e => bytes_eqb k (em_key e)) ems) = Some x) by eauto.
        apply last_em_some in X. destruct X as (e' & X & _). apply filter_In in X. destruct X as [X1 X2].
        apply bytes_eqb_spec in X2. exists (em_keys ems). split; [reflexivity|]. rewrite X2. apply in_map. exact X1.
      * intros (ks & E & K). injection E as <-. unfold em_keys in K. apply in_map_iff in K. destruct K as (e & E & K).
        assert (X : exists x, last_em id (filter (fun e => bytes_eqb k (em_key e)) ems) = Some x).
        { apply last_em_some. exists e. split; [apply filter_In; split; [exact K|rewrite E; apply bytes_eqb_refl]|apply (OS id ems e J K)]. }
        destruct X as [x X]. rewrite X. eexists. reflexivity.
    + rewrite (OUT id k I), (DO id I), <- find_In. apply (ok_docmap vd vs OK).
Qed.
