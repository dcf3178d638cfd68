(* The key-value model refines the map of KvSpec.v. *)
From Coq Require Import ZifyBool.
From Verif Require Import Kv KvSpec KvProofs.
Local Open Scope Z_scope.

(* ---------- arithmetic ---------- *)
Lemma fit_i64 (sat : bool) z : (if sat then sat_i64 z else cast_i64 z) = fit sat (- 2 ^ 63) (2 ^ 63 - 1) z.
Proof.
  unfold fit, clamp, wrap, sat_i64, cast_i64, i64_min, i64_max. destruct sat.
  - destruct (z <? - 2 ^ 63) eqn:A; [lia|]. destruct (2 ^ 63 - 1 <? z) eqn:B; lia.
  - replace (z - - 2 ^ 63) with (z + 2 ^ 63) by lia. replace (2 ^ 63 - 1 - - 2 ^ 63 + 1) with (2 ^ 64) by reflexivity. lia.
Qed.
Lemma fit_u64 (sat : bool) z : (if sat then sat_u64 z else cast_u64 z) = fit sat 0 (2 ^ 64 - 1) z.
Proof.
  unfold fit, clamp, wrap, sat_u64, cast_u64, u64_max. destruct sat.
  - destruct (z <? 0) eqn:A; [lia|]. destruct (2 ^ 64 - 1 <? z) eqn:B; lia.
  - replace (z - 0) with z by lia. replace (2 ^ 64 - 1 - 0 + 1) with (2 ^ 64) by reflexivity. lia.
Qed.
Lemma fit_id sat lo hi z : lo <= z <= hi -> fit sat lo hi z = z.
Proof. intros H. unfold fit, clamp, wrap. destruct sat; [lia|]. rewrite Z.mod_small; lia. Qed.
Lemma trunc_quot s m e :
  sf_trunc s m e = Z.quot ((if s then -1 else 1) * Zpos m * 2 ^ Z.max 0 e) (2 ^ Z.max 0 (- e)).
Proof.
  unfold sf_trunc. destruct (0 <=? e) eqn:E.
  - rewrite (Z.max_r 0 e), (Z.max_l 0 (- e)) by lia. change (2 ^ 0) with 1. rewrite Z.quot_1_r. destruct s; ring.
  - rewrite (Z.max_l 0 e), (Z.max_r 0 (- e)) by lia. change (2 ^ 0) with 1. rewrite Z.mul_1_r.
    assert (P : 0 < 2 ^ (- e)) by (apply Z.pow_pos_nonneg; lia).
    destruct s.
    + replace (-1 * Z.pos m) with (- Z.pos m) by lia. rewrite Z.quot_opp_l by lia. f_equal. symmetry. apply Z.quot_div_nonneg; lia.
    + rewrite Z.mul_1_l. symmetry. apply Z.quot_div_nonneg; lia.
Qed.
Lemma sat_i64_clamp z : sat_i64 z = clamp (- 2 ^ 63) (2 ^ 63 - 1) z. Proof. exact (fit_i64 true z). Qed.
Lemma sat_u64_clamp z : sat_u64 z = clamp 0 (2 ^ 64 - 1) z. Proof. exact (fit_u64 true z). Qed.
Lemma to_int_i64 x sat : num_ok x -> as_i64_lossy x sat = to_int sat (- 2 ^ 63) (2 ^ 63 - 1) x.
Proof.
  destruct x as [z|z|f]; cbn -[Z.pow fit]; intros H.
  - symmetry. apply fit_id. exact H.
  - destruct sat; [|exact (fit_i64 false z)]. rewrite <- (fit_i64 true z). unfold is_i64, sat_i64, i64_min, i64_max.
    destruct (z <? - 2 ^ 63) eqn:A, (2 ^ 63 - 1 <? z) eqn:B, ((- 2 ^ 63 <=? z) && (z <=? 2 ^ 63 - 1)) eqn:C; lia.
  - destruct f as [| | |s m e]; try reflexivity. cbn [f_as_i64]. rewrite sat_i64_clamp, trunc_quot. reflexivity.
Qed.
Lemma to_int_u64 x sat : num_ok x -> as_u64_lossy x sat = to_int sat 0 (2 ^ 64 - 1) x.
Proof.
  destruct x as [z|z|f]; cbn -[Z.pow fit]; intros H.
  - destruct sat; [|exact (fit_u64 false z)]. rewrite <- (fit_u64 true z). unfold is_u64, sat_u64, u64_max.
    destruct (z <? 0) eqn:A, (2 ^ 64 - 1 <? z) eqn:B, ((0 <=? z) && (z <=? 2 ^ 64 - 1)) eqn:C; lia.
  - symmetry. apply fit_id. exact H.
  - destruct f as [| | |s m e]; try reflexivity. cbn [f_as_u64]. rewrite sat_u64_clamp, trunc_quot. reflexivity.
Qed.
Lemma increment_spec x a sat : num_ok x -> increment x a sat = spec_num false x a sat.
Proof.
  intros H. destruct a; unfold increment, spec_num, f_add; cbn zeta.
  - f_equal. rewrite (to_int_i64 _ _ H). apply fit_i64.
  - f_equal. rewrite (to_int_u64 _ _ H). apply fit_u64.
  - reflexivity.
Qed.
Lemma decrement_spec x a sat : num_ok x -> decrement x a sat = spec_num true x a sat.
Proof.
  intros H. destruct a; unfold decrement, spec_num; cbn zeta.
  - f_equal. rewrite (to_int_i64 _ _ H). apply fit_i64.
  - f_equal. rewrite (to_int_u64 _ _ H). apply fit_u64.
  - reflexivity.
Qed.
Lemma fit_range sat lo hi z : lo <= hi -> lo <= fit sat lo hi z <= hi.
Proof.
  intros H. unfold fit, clamp, wrap. destruct sat; [lia|].
  pose proof (Z.mod_pos_bound (z - lo) (hi - lo + 1)). lia.
Qed.
Lemma spec_num_ok sub x a sat : num_ok (spec_num sub x a sat).
Proof. destruct a; unfold spec_num; cbn zeta; try exact I; apply fit_range; lia. Qed.
Lemma num_validate_spec x : num_validate x = if is_nan (VNum x) then None else Some x.
Proof. destruct x as [| |[]]; reflexivity. Qed.
Lemma val_validate_spec v : val_validate v = if is_nan v then None else Some v.
Proof. destruct v as [|x]; [reflexivity|]. cbn [val_validate]. rewrite num_validate_spec. destruct (is_nan (VNum x)); reflexivity. Qed.

(* ---------- commands ---------- *)
Definition abs (s : kst) : kmap := fun k => option_map cell_of (kv_get s k).

Lemma put_abs s s2 k e : (forall j, kv_get s2 j = if bytes_eqb j k then e else kv_get s j) ->
  forall j, abs s2 j = put k (option_map cell_of e) (abs s) j.
Proof. intros G j. unfold abs, put. rewrite G. destruct (bytes_eqb j k); reflexivity. Qed.

Definition cell_ok (c : option cell) : Prop := match c with Some (v, _) => val_ok v | None => True end.
Lemma option_map_comp (e : option entry) : option_map fst (option_map cell_of e) = option_map e_val e.
Proof. destruct e; reflexivity. Qed.

Lemma kv_set_post s k e0 e : kinv s -> match e0 with Some x => e_exp x | None => None end = e_exp e -> e0 = kv_get s k ->
  exec_post s k (kv_set s k e) (Some e).
Proof.
  intros I X ->. unfold kv_set. split; [apply kinv_dirty, I|]. split; [repeat split|].
  split; [intros j; apply kv_get_dirty|]. split; [|reflexivity].
  unfold sync_at. intros S. rewrite kv_get_dirty, bytes_eqb_refl. cbn. rewrite S. exact X.
Qed.
Lemma exec_numeric_ok s k a sat now op sub : kinv s ->
  (forall x, num_ok x -> op x a sat = spec_num sub x a sat) -> cell_ok (abs s k) ->
  exists r s2 e, exec_numeric s k a sat now op = (r, s2) /\ exec_post s k s2 e /\
    spec_arith sub a sat (abs s k) = (r, option_map cell_of e).
Proof.
  intros I H V. unfold exec_numeric, spec_arith. pose proof (post_self s k I) as PS. unfold abs in *.
  destruct (kv_get s k) as [e|] eqn:G; cbn [option_map cell_of e_val e_exp fst snd].
  - destruct (e_val e) as [b|x] eqn:EV.
    + exists (KErr ENotNumeric), s, (Some e). split; [reflexivity|]. split; [exact PS|reflexivity].
    + rewrite num_validate_spec. cbn [cell_ok option_map cell_of] in V. rewrite EV in V. rewrite (H x V).
      destruct (is_nan (VNum (spec_num sub x a sat))).
      * exists (KErr ENotANumber), s, (Some e). split; [reflexivity|]. split; [exact PS|reflexivity].
      * eexists _, _, (Some (Entry _ _ _)). split; [reflexivity|]. split; [|reflexivity].
        apply (kv_set_post s k (Some e)); [exact I|reflexivity|symmetry; exact G].
  - rewrite num_validate_spec, (H (NUInt 0)) by (cbn; lia).
    destruct (is_nan (VNum (spec_num sub (NUInt 0) a sat))).
    + exists (KErr ENotANumber), s, None. split; [reflexivity|]. split; [exact PS|reflexivity].
    + eexists _, _, (Some (Entry _ _ _)). split; [reflexivity|]. split; [|reflexivity].
      apply (kv_set_post s k None); [exact I|reflexivity|symmetry; exact G].
Qed.

(* a command never panics, gives the specified result and changes its key as specified *)
Lemma exec_ok s k c now : kinv s -> cmd_ok c -> cell_ok (abs s k) ->
  exists r s2 e, exec s k c now = Some (r, s2) /\ exec_post s k s2 e /\
    spec_cmd c (abs s k) = (r, option_map cell_of e).
Proof.
  intros I C V. pose proof (post_self s k I) as PS. destruct c as [sc|d| |a sat|a sat]; cbn [exec].
  - (* set *)
    unfold exec_set. rewrite val_validate_spec. cbn [spec_cmd]. destruct (is_nan (s_val sc)) eqn:NaN.
    { exists (KErr ENotANumber), s, (kv_get s k). split; [reflexivity|]. split; [exact PS|reflexivity]. }
    set (known := if _ : bool then Some (kv_get s k) else None).
    assert (K : known = Some (kv_get s k) \/ (known = None /\ s_check sc = None /\ s_ret sc = false /\ s_keep sc = false)).
    { unfold known. destruct (s_check sc), (s_ret sc), (s_keep sc); auto. }
    set (existing := match known with Some e => e | None => None end).
    set (upd := match s_check sc with Some OnlyIfPresent => _ | Some OnlyIfVacant => _ | None => true end).
    assert (U : upd = negb (match s_check sc, abs s k with Some OnlyIfPresent, None => true | Some OnlyIfVacant, Some _ => true | _, _ => false end)).
    { unfold upd, existing, abs. destruct K as [->|(-> & -> & _)]; [|reflexivity].
      destruct (s_check sc) as [[]|], (kv_get s k); reflexivity. }
    set (skip := match s_check sc, abs s k with Some OnlyIfPresent, None => true | Some OnlyIfVacant, Some _ => true | _, _ => false end) in *.
    rewrite U. destruct skip eqn:SK; cbn [negb].
    { exists (KOk (OStatus NotChanged)), s, (kv_get s k). split; [reflexivity|]. split; [exact PS|reflexivity]. }
    set (exp := if s_keep sc then _ else s_exp sc).
    assert (X : exp = match s_keep sc, abs s k with true, Some (_, x) => x | _, _ => s_exp sc end).
    { unfold exp, existing, abs. destruct K as [->|(-> & _ & _ & ->)]; [|reflexivity].
      destruct (s_keep sc); [|reflexivity]. destruct (kv_get s k); reflexivity. }
    destruct (write_post s k exp (Some (Entry (s_val sc) exp now)) I eq_refl) as (s1 & UE & P & G & R).
    rewrite UE.
    assert (PR : match known with Some e => (e, kv_set s1 k (Entry (s_val sc) exp now)) | None => kv_replace s1 k (Entry (s_val sc) exp now) end
                 = (kv_get s k, set_dirty (t_set k (Some (Entry (s_val sc) exp now)) (k_dirty s1)) s1)).
    { destruct K as [->|(-> & _)]; [reflexivity|]. rewrite kv_replace_spec, G. reflexivity. }
    rewrite PR. eexists _, _, _. split; [reflexivity|]. split; [exact P|]. cbn [option_map cell_of e_val e_exp]. rewrite <- X.
    unfold abs, cell_of. destruct (s_ret sc); destruct (kv_get s k); reflexivity.
  - unfold exec_get. destruct d; cbn [spec_cmd].
    + destruct (kv_remove_ok s k I) as (s2 & -> & P). exists (KOk (OValue (option_map e_val (kv_get s k)))), s2, None.
      split; [reflexivity|]. split; [exact P|]. unfold abs. rewrite option_map_comp. reflexivity.
    + exists (KOk (OValue (option_map e_val (kv_get s k)))), s, (kv_get s k).
      split; [reflexivity|]. split; [exact PS|]. unfold abs. rewrite option_map_comp. reflexivity.
  - unfold exec_delete. destruct (kv_remove_ok s k I) as (s2 & -> & P). cbn [spec_cmd]. unfold abs.
    destruct (kv_get s k); eexists _, s2, None; (split; [reflexivity|]; split; [exact P|reflexivity]).
  - destruct (exec_numeric_ok s k a sat now increment false I (fun x => increment_spec x a sat) V) as (r & s2 & e & E & P & S).
    exists r, s2, e. cbn [spec_cmd]. rewrite E. auto.
  - destruct (exec_numeric_ok s k a sat now decrement true I (fun x => decrement_spec x a sat) V) as (r & s2 & e & E & P & S).
    exists r, s2, e. cbn [spec_cmd]. rewrite E. auto.
Qed.

Lemma exec_cell_ok c x : cmd_ok c -> cell_ok x -> cell_ok (snd (spec_cmd c x)).
Proof.
  intros C V. destruct c as [sc|[]| |a sat|a sat]; cbn [spec_cmd snd]; try exact I; try exact V.
  - destruct (is_nan (s_val sc)); [exact V|]. destruct (match s_check sc with Some OnlyIfPresent => _ | Some OnlyIfVacant => _ | None => false end); [exact V|].
    exact C.
  - unfold spec_arith. destruct (match x with Some c => c | None => _ end) as [[b|y] z]; [exact V|]. cbn [fst snd].
    destruct (is_nan _); [exact V|]. apply spec_num_ok.
  - unfold spec_arith. destruct (match x with Some c => c | None => _ end) as [[b|y] z]; [exact V|]. cbn [fst snd].
    destruct (is_nan _); [exact V|]. apply spec_num_ok.
Qed.

(* ---------- steps ---------- *)
Definition rel (s : kst) (m : kmap) : Prop :=
  kinv s /\ synced s /\ (forall k, abs s k = m k) /\ forall k, cell_ok (m k).

Lemma due_purge s now k : synced s -> purge now (abs s) k = if due (k_exp s) now k then None else abs s k.
Proof.
  intros S. unfold purge, abs, due, expired. rewrite S. destruct (kv_get s k) as [e|]; [|reflexivity].
  cbn. destruct (e_exp e); reflexivity.
Qed.
Lemma purge_ext now m m' : (forall k, m k = m' k) -> forall k, purge now m k = purge now m' k.
Proof. intros H k. unfold purge. rewrite H. reflexivity. Qed.
Lemma purge_cell_ok now m : (forall k, cell_ok (m k)) -> forall k, cell_ok (purge now m k).
Proof. intros H k. unfold purge. specialize (H k). destruct (m k) as [c|]; [|exact I]. destruct (expired now c); [exact I|exact H]. Qed.
Lemma expire_rel s m now : rel s m -> exists s1, kv_expire now s = Some s1 /\ rel s1 (purge now m).
Proof.
  intros (I & S & A & V). destruct (kv_expire_ok now s I) as (s1 & E & I1 & G & X & _).
  exists s1. split; [exact E|]. split; [exact I1|]. split; [|split].
  - intros k. rewrite X, G. destruct (due (k_exp s) now k); [reflexivity|apply S].
  - intros k. rewrite (purge_ext now m (abs s)) by (intros; symmetry; apply A). rewrite due_purge by exact S.
    unfold abs. rewrite G. destruct (due (k_exp s) now k); reflexivity.
  - apply purge_cell_ok, V.
Qed.
Lemma commit_rel s m now : rel s m -> rel (snd (commit_dirty s now)) m.
Proof.
  intros (I & S & A & V). unfold commit_dirty. destruct (stage s) as [[b s1]|] eqn:St; [|exact (conj I (conj S (conj A V)))].
  destruct (stage_ok s b s1 I St) as (I1 & G & X & _). cbn [snd].
  split; [exact I1|]. split; [|split; [|exact V]].
  - intros k. cbn [k_exp set_thread set_last]. rewrite X. change (kv_get (set_last now (set_thread (Some (b, false)) s1)) k) with (kv_get s1 k).
    rewrite G. apply S.
  - intros k. rewrite <- A. unfold abs. change (kv_get (set_last now (set_thread (Some (b, false)) s1)) k) with (kv_get s1 k).
    rewrite G. reflexivity.
Qed.
Lemma maybe_commit_rel s m now (b : bool) : rel s m -> rel (if b then snd (commit_dirty s now) else s) m.
Proof. intros R. destruct b; [apply commit_rel, R|exact R]. Qed.
Lemma rel_ext s m m' : (forall k, m k = m' k) -> rel s m -> rel s m'.
Proof. intros H (I & S & A & V). split; [exact I|]. split; [exact S|]. split; [intros k; rewrite A; apply H|].
  intros k. rewrite <- H. apply V. Qed.

(* the state seen through the overlay does not change when the writer works *)
Lemma write_view s s' : kinv s -> thread_write s = Some s' ->
  kinv s' /\ (forall k, kv_get s' k = kv_get s k) /\ k_exp s' = k_exp s.
Proof.
  intros (O & Wd & Wk & Wp & T) H. unfold thread_write in H. destruct (k_thread s) as [[b []]|] eqn:Th; try discriminate.
  injection H as <-. unfold thread_ok in T. rewrite Th in T. destruct T as [P _].
  pose proof (Wp b P) as Wb. split; [|split].
  - split; [exact O|]. split; [exact Wd|]. split; [apply wf_write_batch, Wk|]. split; [exact Wp|].
    unfold thread_ok. cbn. split; [exact P|]. intros _ k e G. rewrite get_write_batch by exact Wb. rewrite G. reflexivity.
  - intros k. unfold kv_get. cbn. destruct (t_get k (k_dirty s)); [reflexivity|]. rewrite P.
    rewrite get_write_batch by exact Wb. destruct (t_get k b); reflexivity.
  - reflexivity.
Qed.
Lemma fail_view s s' : kinv s -> thread_fail s = Some s' ->
  kinv s' /\ (forall k, kv_get s' k = kv_get s k) /\ k_exp s' = k_exp s.
Proof.
  intros (O & Wd & Wk & Wp & T) H. unfold thread_fail in H. destruct (k_thread s) as [[b []]|] eqn:Th; try discriminate.
  injection H as <-. split; [|split; reflexivity].
  split; [exact O|]. split; [exact Wd|]. split; [exact Wk|]. split; [exact Wp|exact I].
Qed.
Lemma unpersist_view s b : kinv s -> k_thread s = Some (b, true) ->
  let s1 := set_thread None (set_pers None s) in
  kinv s1 /\ (forall k, kv_get s1 k = kv_get s k) /\ (forall k, k_dirty s = [] -> t_get k (k_disk s) = kv_get s k).
Proof.
  intros (O & Wd & Wk & Wp & T) Th. unfold thread_ok in T. rewrite Th in T. destruct T as [P Q]. specialize (Q eq_refl).
  cbn zeta. split; [|split].
  - split; [exact O|]. split; [exact Wd|]. split; [exact Wk|]. split; [intros q H; discriminate H|exact I].
  - intros k. unfold kv_get. cbn. rewrite P. destruct (t_get k (k_dirty s)); [reflexivity|].
    destruct (t_get k b) as [e|] eqn:G; [apply (Q k e G)|reflexivity].
  - intros k D. unfold kv_get. rewrite P, D. cbn. destruct (t_get k b) as [e|] eqn:G; [apply (Q k e G)|reflexivity].
Qed.
Lemma finish_view s s' : kinv s -> thread_finish s = Some s' ->
  kinv s' /\ (forall k, kv_get s' k = kv_get s k) /\ k_exp s' = k_exp s.
Proof.
  intros I H. unfold thread_finish in H. destruct (k_thread s) as [[b []]|] eqn:Th; try discriminate.
  destruct (unpersist_view s b I Th) as (I1 & G & _). cbn zeta in *. set (s1 := set_thread None (set_pers None s)) in *.
  injection H as <-. change (k_shut s) with (k_shut s1). destruct (k_shut s1).
  - destruct (stage s1) as [[b2 s2]|] eqn:St.
    + destruct (stage_ok s1 b2 s2 I1 St) as (I2 & G2 & X2 & _). split; [exact I2|]. split; [|exact X2].
      intros k. rewrite <- G. exact (G2 k).
    + split; [exact I1|]. split; [exact G|reflexivity].
  - split; [exact I1|]. split; [exact G|reflexivity].
Qed.
Lemma view_rel s s' m : rel s m -> kinv s' /\ (forall k, kv_get s' k = kv_get s k) /\ k_exp s' = k_exp s -> rel s' m.
Proof.
  intros (I & S & A & V) (I' & G & X). split; [exact I'|]. split; [|split; [|exact V]].
  - intros k. rewrite X, G. apply S.
  - intros k. unfold abs. rewrite G. apply A.
Qed.

Lemma step_sim s m e : rel s m -> no_loader e -> event_ok e ->
  match step s e with
  | SPanic => False
  | SDisabled => spec_event m e = (None, m) /\ rel s m
  | SOk o s' => fst (spec_event m e) = o /\ rel s' (snd (spec_event m e))
  end.
Proof.
  intros R NL OK. destruct e as [ns key c now|now| | | |now|l|]; try (destruct NL; fail).
  - cbn [step spec_event]. unfold perform. destruct (expire_rel s m now R) as (s1 & -> & R1).
    pose proof R1 as (I1 & S1 & A1 & V1). set (k := full_key ns key).
    destruct (exec_ok s1 k c now I1 OK) as (r & s2 & e & -> & PO & SP).
    { rewrite A1. apply V1. }
    pose proof (post_synced _ _ _ _ PO) as Sy. destruct PO as (I2 & SR & G & _).
    rewrite <- A1, SP.
    assert (R2 : rel s2 (put k (option_map cell_of e) (purge now m))).
    { split; [exact I2|]. split; [apply Sy, S1|]. split.
      - intros j. rewrite (put_abs s1 s2 k e G j). unfold put. rewrite A1. reflexivity.
      - intros j. unfold put. destruct (bytes_eqb j k); [|apply V1].
        replace (option_map cell_of e) with (snd (spec_cmd c (abs s1 k))) by (rewrite SP; reflexivity).
        apply exec_cell_ok; [exact OK|]. rewrite A1. apply V1. }
    destruct r as [o|err]; cbn [fst snd]; (split; [reflexivity|]); [apply maybe_commit_rel|]; exact R2.
  - cbn [step spec_event]. unfold bg_round. destruct (expire_rel s m now R) as (s1 & -> & R1). cbn [liftp fst snd].
    split; [reflexivity|]. apply maybe_commit_rel, R1.
  - cbn [step spec_event]. destruct (thread_write s) as [s'|] eqn:E; cbn [lift]; [|split; [reflexivity|exact R]].
    split; [reflexivity|]. apply (view_rel s); [exact R|]. apply write_view; [apply R|exact E].
  - cbn [step spec_event]. destruct (thread_fail s) as [s'|] eqn:E; cbn [lift]; [|split; [reflexivity|exact R]].
    split; [reflexivity|]. apply (view_rel s); [exact R|]. apply fail_view; [apply R|exact E].
  - cbn [step spec_event]. destruct (thread_finish s) as [s'|] eqn:E; cbn [lift]; [|split; [reflexivity|exact R]].
    split; [reflexivity|]. apply (view_rel s); [exact R|]. apply finish_view; [apply R|exact E].
  - cbn [step spec_event fst snd]. split; [reflexivity|]. unfold kv_shutdown. destruct (k_pers s); [exact R|].
    pose proof (commit_rel s m now R) as C. destruct (commit_dirty s now) as [[] s1]; cbn [snd] in *; [|exact C].
    exact C.
Qed.

Lemma run_sim s m es : rel s m -> Forall no_loader es -> Forall event_ok es ->
  exists rs s', run s es = Some (rs, s') /\ rs = fst (spec_run m es) /\ rel s' (snd (spec_run m es)).
Proof.
  revert s m; induction es as [|e r IH]; intros s m R NL OK; cbn [run spec_run].
  - exists [], s. auto.
  - inversion NL as [|? ? N1 N2]; subst. inversion OK as [|? ? O1 O2]; subst.
    pose proof (step_sim s m e R N1 O1) as ST. destruct (step s e) as [| |o s'].
    + destruct ST.
    + destruct ST as [-> R']. destruct (IH s m R' N2 O2) as (rs & s' & E & Q & R2). exists rs, s'. rewrite E.
      destruct (spec_run m r) as [rs2 m2]. cbn in *. auto.
    + destruct ST as [Q R']. destruct (spec_event m e) as [o' m']. cbn [fst snd] in *. subst o'.
      destruct (IH s' m' R' N2 O2) as (rs & s'' & -> & Q & R2). destruct (spec_run m' r) as [rs2 m2]. cbn [fst snd] in *. subst rs2.
      eexists _, s''. split; [reflexivity|]. split; [destruct o; reflexivity|exact R2].
Qed.

(* ---------- opening ---------- *)
Definition wants (launched : ts) (e : entry) : bool :=
  ts_ltb (e_upd e) launched && match e_exp e with Some _ => true | None => false end.
Lemma load_all_ok l : forall s, kinv s -> k_load s = l -> NoDup (map fst l) ->
  exists s', load_all (length l) s = Some s' /\ kinv s' /\ (forall k, kv_get s' k = kv_get s k) /\
    k_load s' = [] /\
    forall k, t_get k (k_exp s') = match t_get k l with Some x => x | None => t_get k (k_exp s) end.
Proof.
  induction l as [|[k x] r IH]; intros s I L ND; cbn [length load_all].
  - exists s. auto.
  - unfold load_one. rewrite L. inversion ND as [|? ? Nk Nr]; subst.
    pose proof I as (O & Wd & Wk & Wp & T).
    destruct (update_exp_ok (set_load r s) k x O) as (y & o & -> & O' & X).
    destruct (IH (set_expo y o (set_load r s))) as (s' & E & I' & G & L' & X'); [|reflexivity|exact Nr|].
    { split; [exact O'|]. split; [exact Wd|]. split; [exact Wk|]. split; [exact Wp|exact T]. }
    exists s'. split; [exact E|]. split; [exact I'|]. split; [exact G|]. split; [exact L'|].
    intros j. rewrite X'. cbn [t_get k_exp set_expo]. rewrite X. eqb_cases j k; [|reflexivity].
    assert (t_get k r = None) as -> by (apply get_none; exact Nk). reflexivity.
Qed.
Lemma get_map_filter (f : entry -> bool) (g : entry -> option ts) (d : tree entry) k : t_wf d ->
  t_get k (map (fun p => (fst p, g (snd p))) (filter (fun p => f (snd p)) d)) =
  match t_get k d with Some e => if f e then Some (g e) else None | None => None end.
Proof.
  induction d as [|[j e] r IH]; intros W; [reflexivity|]. cbn [filter snd fst].
  assert (Wr : t_wf r) by exact (sorted_above_sorted _ _ W). cbn [t_get].
  eqb_cases k j.
  - assert (G : t_get j r = None).
    { apply get_none. intros I. apply (lex_lt_irrefl j). exact (sorted_above_In _ _ _ W I). }
    destruct (f e); cbn [map t_get fst snd]; [rewrite bytes_eqb_refl; reflexivity|]. rewrite (IH Wr), G. reflexivity.
  - destruct (f e); cbn [map t_get fst snd]; [|apply IH, Wr]. apply bytes_eqb_neq in E. rewrite E. apply IH, Wr.
Qed.
Lemma load_snapshot_list l s : k_load (load_snapshot l s) = map (fun p => (fst p, e_exp (snd p))) (filter (fun p => wants l (snd p)) (all_entries s)).
Proof. reflexivity. Qed.
Lemma load_keys_nodup l d : t_wf d -> NoDup (map fst (map (fun p : bytes * entry => (fst p, e_exp (snd p))) (filter (fun p => wants l (snd p)) d))).
Proof.
  intros W. rewrite map_map. cbn [fst]. change (NoDup (t_keys (filter (fun p => wants l (snd p)) d))).
  apply sorted_NoDup. apply wf_filter. exact W.
Qed.
Lemma all_entries_wf s : kinv s -> t_wf (all_entries s).
Proof. intros (_ & _ & Wk & _). unfold all_entries. apply wf_write_batch. destruct (k_pers s); [apply wf_write_batch|]; exact Wk. Qed.
(* the loader, run without interruption, adds exactly the expirations of older entries *)
Lemma loader_ok l s : kinv s -> exists s', load_all (length (k_load (load_snapshot l s))) (load_snapshot l s) = Some s' /\
  kinv s' /\ (forall k, kv_get s' k = kv_get s k) /\ k_load s' = [] /\
  forall k, t_get k (k_exp s') = match kv_get s k with
                                 | Some e => if wants l e then e_exp e else t_get k (k_exp s)
                                 | None => t_get k (k_exp s) end.
Proof.
  intros I. destruct (load_all_ok (k_load (load_snapshot l s)) (load_snapshot l s)) as (s' & E & I' & G & L & X).
  - exact I.
  - reflexivity.
  - rewrite load_snapshot_list. apply load_keys_nodup, all_entries_wf, I.
  - exists s'. split; [exact E|]. split; [exact I'|]. split; [exact G|]. split; [exact L|].
    intros k. rewrite X, load_snapshot_list, (get_map_filter (wants l) e_exp) by (apply all_entries_wf, I).
    rewrite (get_all_entries s k I). destruct (kv_get s k) as [e|]; [|reflexivity]. destruct (wants l e); reflexivity.
Qed.
Lemma opened_rel p now launched d : disk_ok d ->
  (forall k e, t_get k d = Some e -> ts_ltb (e_upd e) launched = true) ->
  exists s, opened p now launched d = Some s /\ rel s (disk_map d).
Proof.
  intros [W V] B. pose proof (kinv_open p now d W) as I.
  destruct (loader_ok launched _ I) as (s & E & I' & G & L & X). exists s. split; [exact E|].
  split; [exact I'|]. split; [|split].
  - intros k. rewrite X, G. change (kv_get (kv_open p now d) k) with (t_get k d). destruct (t_get k d) as [e|] eqn:Gd; [|reflexivity].
    unfold wants. rewrite (B k e Gd). destruct (e_exp e); reflexivity.
  - intros k. unfold abs. rewrite G. reflexivity.
  - intros k. unfold disk_map, cell_ok. destruct (t_get k d) as [e|] eqn:Gd; [|exact I0 || exact Logic.I]. apply (V k e Gd).
Qed.
