(* C77: the key-value calls as programs make them. *)
From Coq Require Import ZifyBool Lia Arith.
From Verif Require Import Base Tree Kv KvSpec KvProofs KvSim KvDisk PropKv KvApi.
Local Open Scope Z_scope.

(* ================= specification ================= *)
(* the number is the integer z, exactly *)
Definition exactly (x : numeric) (z : Z) : Prop :=
  match x with
  | NInt y | NUInt y => y = z
  | NFloat (S754_zero _) => z = 0
  | NFloat (S754_finite s m e) => (if s then Zneg m else Zpos m) * 2 ^ Z.max 0 e = z * 2 ^ Z.max 0 (- e)
  | NFloat _ => False
  end.
(* what a plain read of the key returns *)
Definition reads (s : kst) (ns : option bytes) (key : bytes) (now : ts) (v : option value) : Prop :=
  snd (query (GetB ns key false) s now) = Done v.

(* ---------- one operation in a reachable state ---------- *)
Lemma reach_perform s ns key c now : reachable_kv s -> cmd_ok c ->
  exists s', perform s ns key c now = Some (fst (spec_cmd c (purge now (abs s) (full_key ns key))), s') /\ reachable_kv s' /\
    forall k, abs s' k = put (full_key ns key) (snd (spec_cmd c (purge now (abs s) (full_key ns key)))) (purge now (abs s)) k.
Proof.
  intros R C. pose proof (step_sim s _ (EOp ns key c now) (reachable_rel s R) I C) as ST. cbn [step spec_event] in ST.
  destruct (perform s ns key c now) as [[r s']|] eqn:P; [|destruct ST].
  destruct (spec_cmd c (purge now (abs s) (full_key ns key))) as [r' e'] eqn:E. cbn [fst snd] in *. destruct ST as (Q & RL). injection Q as <-.
  exists s'. split; [reflexivity|]. split; [|intros k; apply RL].
  destruct R as (p & n0 & l & d & es & s0 & rs & A & B & D & F & G).
  exists p, n0, l, d, (es ++ [EOp ns key c now]), s0, (rs ++ [r']). split; [exact A|]. split; [apply Forall_app; split; [exact B|repeat constructor]|].
  split; [apply Forall_app; split; [exact D|constructor; [exact C|constructor]]|]. split; [exact F|].
  rewrite run_app, G. cbn [run step]. rewrite P. reflexivity.
Qed.
Lemma reach_run s es rs s' : reachable_kv s -> Forall no_loader es -> Forall event_ok es -> run s es = Some (rs, s') ->
  reachable_kv s' /\ forall k, abs s' k = snd (spec_run (abs s) es) k.
Proof.
  intros R NL OK E. destruct (run_sim s _ es (reachable_rel s R) NL OK) as (rs1 & s1 & E1 & _ & RL). rewrite E in E1. injection E1 as <- <-.
  split; [|intros k; apply RL]. destruct R as (p & n0 & l & d & es0 & s0 & rs0 & A & B & D & F & G).
  exists p, n0, l, d, (es0 ++ es), s0, (rs0 ++ rs). split; [exact A|]. split; [apply Forall_app; split; assumption|].
  split; [apply Forall_app; split; assumption|]. split; [exact F|]. rewrite run_app, G, E. reflexivity.
Qed.
Lemma query_spec s b now : reachable_kv s -> exists s', query b s now = (s', Done (option_map fst (purge now (abs s) (full_key (g_ns b) (g_key b))))) /\
  reachable_kv s' /\ forall k, abs s' k = put (full_key (g_ns b) (g_key b)) (if g_delete b then None else purge now (abs s) (full_key (g_ns b) (g_key b))) (purge now (abs s)) k.
Proof.
  intros R. destruct (reach_perform s (g_ns b) (g_key b) (CGet (g_delete b)) now R I) as (s' & P & R' & A). exists s'.
  unfold query, operate. rewrite P. destruct (g_delete b); cbn [spec_cmd fst snd] in *; auto.
Qed.
Lemma reads_spec s ns key now v : reachable_kv s -> (reads s ns key now v <-> v = option_map fst (purge now (abs s) (full_key ns key))).
Proof.
  intros R. unfold reads. destruct (query_spec s (GetB ns key false) now R) as (s' & -> & _). cbn [snd g_ns g_key]. split; [intros H; injection H as H; auto|intros ->; reflexivity].
Qed.
Lemma purge_put now k c m : (match c with Some x => expired now x = false | None => True end) -> purge now (put k c m) k = c.
Proof. intros H. unfold purge, put. rewrite bytes_eqb_refl. destruct c as [x|]; [rewrite H|]; reflexivity. Qed.
Lemma purge_alive now m k : match purge now m k with Some x => expired now x = false | None => True end.
Proof. unfold purge. destruct (m k) as [c|]; [|exact I]. destruct (expired now c) eqn:E; [exact I|exact E]. Qed.
Lemma cell_abs s k now : reachable_kv s -> cell_ok (purge now (abs s) k).
Proof. intros R. apply purge_cell_ok. intros j. destruct (reachable_rel s R) as (_ & _ & A & V). apply V. Qed.

(* ================= set ================= *)
Definition pending_ok {V} (p : pending V) : Prop := match p with PNum x => num_ok x | _ => True end.
Lemma prepare_ok {V} (C : serde V) p v : pending_ok p -> prepare C p = Some v -> val_ok v.
Proof. destruct p as [b|x|x]; cbn; intros O; [intros [= <-]; exact I| |intros [= <-]; exact O]. destruct (to_vec C x); [intros [= <-]; exact I|discriminate]. Qed.

(* what both ways of finishing a set answer, and what is stored afterwards *)
Theorem C77_set : forall V (C : serde V) (b : set_builder V) s now v before,
  reachable_kv s -> pending_ok (b_value b) -> prepare C (b_value b) = Some v -> reads s (b_ns b) (b_key b) now before ->
  let e := execute C b s now in let p := returning_previous C b s now in
  (is_nan v = true -> snd e = Fail (AStore ENotANumber) /\ snd p = Fail (AStore ENotANumber) /\ reads (fst e) (b_ns b) (b_key b) now before /\ reads (fst p) (b_ns b) (b_key b) now before) /\
  (is_nan v = false -> ~ holds (b_check b) before ->
     snd e = Done NotChanged /\ snd p = Done None /\ reads (fst e) (b_ns b) (b_key b) now before /\ reads (fst p) (b_ns b) (b_key b) now before) /\
  (is_nan v = false -> holds (b_check b) before ->
     snd e = Done (match before with Some _ => Updated | None => Inserted end) /\ snd p = Done before /\
     ((forall t, b_exp b = Some t -> ts_ltb now t = true) -> reads (fst e) (b_ns b) (b_key b) now (Some v) /\ reads (fst p) (b_ns b) (b_key b) now (Some v))).
Proof.
  intros V C b s now v before R PO P B e p. pose proof (prepare_ok C _ _ PO P) as VO. apply (reads_spec s _ _ now before R) in B.
  set (k := full_key (b_ns b) (b_key b)) in *. set (cur := purge now (abs s) k) in *.
  assert (G : forall ret, exists s', perform s (b_ns b) (b_key b) (CSet (SetCmd v (b_exp b) (b_keep b) (b_check b) ret)) now =
    Some (fst (spec_cmd (CSet (SetCmd v (b_exp b) (b_keep b) (b_check b) ret)) cur), s') /\ reachable_kv s' /\
    purge now (abs s') k = match snd (spec_cmd (CSet (SetCmd v (b_exp b) (b_keep b) (b_check b) ret)) cur) with Some x => if expired now x then None else Some x | None => None end).
  { intros ret. destruct (reach_perform s (b_ns b) (b_key b) (CSet (SetCmd v (b_exp b) (b_keep b) (b_check b) ret)) now R VO) as (s' & E & R' & A).
    exists s'. split; [exact E|]. split; [exact R'|]. unfold purge at 1. rewrite A. fold k. unfold put. rewrite bytes_eqb_refl. reflexivity. }
  pose proof (purge_alive now (abs s) k) as AL. fold cur in AL.
  assert (SAME : option_map fst match cur with Some x => if expired now x then None else Some x | None => None end = before).
  { rewrite B. destruct cur as [c|]; [rewrite AL|]; reflexivity. }
  destruct (G false) as (s1 & P1 & R1 & A1). destruct (G true) as (s2 & P2 & R2 & A2). subst e p. unfold execute, returning_previous, operate. rewrite P, P1, P2.
  cbn [spec_cmd s_val s_check s_ret s_keep s_exp] in *. split; [|split].
  - intros NN. rewrite NN in *. cbn [fst snd] in *. split; [reflexivity|]. split; [reflexivity|].
    split; apply reads_spec; try assumption; fold k; rewrite ?A1, ?A2; symmetry; exact SAME.
  - intros NN H. rewrite NN in *.
    assert (Q : match b_check b, cur with Some OnlyIfPresent, None => true | Some OnlyIfVacant, Some _ => true | _, _ => false end = true).
    { rewrite B in H. unfold holds in H. destruct (b_check b) as [[]|], cur; cbn in *; try reflexivity; exfalso; apply H; exact I. }
    rewrite Q in *. cbn [fst snd] in *. split; [reflexivity|]. split; [reflexivity|].
    split; apply reads_spec; try assumption; fold k; rewrite ?A1, ?A2; symmetry; exact SAME.
  - intros NN H. rewrite NN in *.
    assert (Q : match b_check b, cur with Some OnlyIfPresent, None => true | Some OnlyIfVacant, Some _ => true | _, _ => false end = false).
    { rewrite B in H. unfold holds in H. destruct (b_check b) as [[]|], cur; cbn in *; try reflexivity; destruct H. }
    rewrite Q in *. cbn [fst snd] in *. split; [rewrite B; destruct cur; reflexivity|]. split; [rewrite B; reflexivity|].
    intros T.
    assert (EX : expired now (v, match b_keep b, cur with true, Some (_, x) => x | _, _ => b_exp b end) = false).
    { unfold expired. cbn [snd]. assert (EB : match b_exp b with Some t => ts_leb t now | None => false end = false).
      { destruct (b_exp b) as [t|]; [|reflexivity]. specialize (T t eq_refl). unfold ts_ltb in T. apply negb_true_iff in T. exact T. }
      destruct (b_keep b); [|exact EB]. destruct cur as [[w x]|]; [|exact EB]. exact AL. }
    rewrite EX in *. split; apply reads_spec; try assumption; fold k; rewrite ?A1, ?A2; reflexivity.
Qed.

(* a value that was set without an expiration is there until the same key is used
   again, whatever happens to other keys and whatever the clock says *)
Lemma written {V} (C : serde V) s h key (p : pending V) v now es rs s2 now2 : reachable_kv s -> pending_ok p -> prepare C p = Some v -> is_nan v = false ->
  Forall no_loader es -> Forall event_ok es -> Forall (elsewhere (full_key (key_namespace h) key)) es ->
  run (fst (execute C (set_new h key p) s now)) es = Some (rs, s2) -> reachable_kv s2 /\ reads s2 (key_namespace h) key now2 (Some v).
Proof.
  intros R PO P NN NL OK EL. unfold execute, operate, set_new. cbn [b_value b_ns b_key b_exp b_keep b_check]. rewrite P.
  destruct (reach_perform s (key_namespace h) key (CSet (SetCmd v None false None false)) now R (prepare_ok C _ _ PO P)) as (s1 & -> & R1 & A1).
  cbn [spec_cmd s_val s_check s_ret s_keep s_exp] in *. rewrite NN in *. cbn [fst snd] in *.
  set (k := full_key (key_namespace h) key) in *. intros E. destruct (reach_run s1 es rs s2 R1 NL OK E) as (R2 & A2). split; [exact R2|]. apply reads_spec; [exact R2|]. fold k.
  unfold purge. rewrite A2, (spec_run_elsewhere _ es k EL). rewrite A1. unfold put. rewrite bytes_eqb_refl.
  assert (X : existsb (passes (v, None)) es = false).
  { clear. induction es as [|e r IH]; [reflexivity|]. cbn [existsb]. rewrite IH. unfold passes. destruct (event_time e); reflexivity. }
  rewrite X. reflexivity.
Qed.
Lemma query_reads s ns key now v : reads s ns key now v -> snd (query (GetB ns key false) s now) = Done v.
Proof. exact (fun H => H). Qed.
Theorem C77_serialized : forall V (C : serde V) s h key v b now es rs s2 now2,
  reachable_kv s -> to_vec C v = Some b -> from_slice C b = Some v ->
  Forall no_loader es -> Forall event_ok es -> Forall (elsewhere (full_key (key_namespace h) key)) es ->
  run (fst (execute C (set_key h key v) s now)) es = Some (rs, s2) ->
  snd (get_into C (get_key h key) s2 now2) = Done (Some v).
Proof.
  intros V C s h key v b now es rs s2 now2 R T F NL OK EL E.
  destruct (written C s h key (PSer v) (VBytes b) now es rs s2 now2 R I) as (_ & Q); try assumption; try reflexivity.
  { cbn. rewrite T. reflexivity. }
  unfold get_into, map_result, get_key. cbn [snd]. rewrite (query_reads _ _ _ _ _ Q). cbn. rewrite F. reflexivity.
Qed.
Theorem C77_bytes : forall s h key b now es rs s2 now2,
  reachable_kv s -> Forall no_loader es -> Forall event_ok es -> Forall (elsewhere (full_key (key_namespace h) key)) es ->
  run (fst (execute (Serde (fun _ => None) (fun _ => None)) (set_binary_key h key b) s now)) es = Some (rs, s2) ->
  snd (query (get_key h key) s2 now2) = Done (Some (VBytes b)) /\ snd (into_u64 (get_key h key) s2 now2) = Fail ALossy.
Proof.
  intros s h key b now es rs s2 now2 R NL OK EL E.
  destruct (written _ s h key (@PBytes unit b) (VBytes b) now es rs s2 now2 R I eq_refl eq_refl NL OK EL E) as (_ & Q).
  split; [exact Q|]. unfold into_u64, map_result, get_key. cbn [snd]. rewrite (query_reads _ _ _ _ _ Q). reflexivity.
Qed.
Theorem C77_number : forall s h key x now es rs s2 now2,
  reachable_kv s -> num_ok x -> is_nan (VNum x) = false ->
  Forall no_loader es -> Forall event_ok es -> Forall (elsewhere (full_key (key_namespace h) key)) es ->
  run (fst (execute (Serde (fun _ => None) (fun _ => None)) (set_numeric_key h key x) s now)) es = Some (rs, s2) ->
  match x with
  | NInt z => snd (into_i64 (get_key h key) s2 now2) = Done (Some z)
  | NUInt z => snd (into_u64 (get_key h key) s2 now2) = Done (Some z)
  | NFloat f => snd (into_f64 (get_key h key) s2 now2) = Done (Some f)
  end.
Proof.
  intros s h key x now es rs s2 now2 R O NN NL OK EL E.
  destruct (written _ s h key (@PNum unit x) (VNum x) now es rs s2 now2 R O eq_refl NN NL OK EL E) as (_ & Q).
  destruct x; unfold into_i64, into_u64, into_f64, map_result, get_key; cbn [snd]; rewrite (query_reads _ _ _ _ _ Q); reflexivity.
Qed.

(* ================= get and delete ================= *)
Theorem C77_take : forall s ns key now before, reachable_kv s -> reads s ns key now before ->
  snd (query (and_delete (GetB ns key false)) s now) = Done before /\
  reads (fst (query (and_delete (GetB ns key false)) s now)) ns key now None.
Proof.
  intros s ns key now before R B. apply (reads_spec s ns key now before R) in B.
  destruct (query_spec s (and_delete (GetB ns key false)) now R) as (s' & -> & R' & A). cbn [fst snd and_delete g_ns g_key g_delete] in *. rewrite B. split; [reflexivity|].
  apply reads_spec; [exact R'|]. unfold purge at 1. rewrite A. unfold put. rewrite bytes_eqb_refl. reflexivity.
Qed.
Theorem C77_delete : forall s h key now before, reachable_kv s -> reads s (key_namespace h) key now before ->
  snd (delete_key h key s now) = Done (match before with Some _ => Deleted | None => NotChanged end) /\
  reads (fst (delete_key h key s now)) (key_namespace h) key now None.
Proof.
  intros s h key now before R B. apply (reads_spec s _ _ now before R) in B. unfold delete_key, operate.
  destruct (reach_perform s (key_namespace h) key CDelete now R I) as (s' & -> & R' & A). cbn [spec_cmd fst snd] in *. rewrite B.
  split; [destruct (purge now (abs s) _); reflexivity|]. apply reads_spec; [exact R'|]. unfold purge at 1. rewrite A. unfold put. rewrite bytes_eqb_refl. reflexivity.
Qed.

(* ================= increment ================= *)
Definition same_type (a b : numeric) : Prop := match a, b with NInt _, NInt _ | NUInt _, NUInt _ | NFloat _, NFloat _ => True | _, _ => False end.
Theorem C77_increment : forall b s now before, reachable_kv s -> num_ok (i_amount b) -> reads s (i_ns b) (i_key b) now before ->
  match before with
  | Some (VBytes _) => snd (inc_execute b s now) = Fail (AStore ENotNumeric) /\ reads (fst (inc_execute b s now)) (i_ns b) (i_key b) now before
  | _ => let x := match before with Some (VNum x) => x | _ => NUInt 0 end in
         let y := spec_num (negb (i_increment b)) x (i_amount b) (i_saturating b) in
         if is_nan (VNum y) then snd (inc_execute b s now) = Fail (AStore ENotANumber) /\ reads (fst (inc_execute b s now)) (i_ns b) (i_key b) now before
         else snd (inc_execute b s now) = Done y /\ same_type y (i_amount b) /\ reads (fst (inc_execute b s now)) (i_ns b) (i_key b) now (Some (VNum y))
  end.
Proof.
  intros b s now before R O B. apply (reads_spec s _ _ now before R) in B. set (k := full_key (i_ns b) (i_key b)) in *. set (cur := purge now (abs s) k) in *.
  set (c := if i_increment b then CIncr (i_amount b) (i_saturating b) else CDecr (i_amount b) (i_saturating b)).
  assert (CO : cmd_ok c) by (unfold c; destruct (i_increment b); exact O).
  destruct (reach_perform s (i_ns b) (i_key b) c now R CO) as (s' & P & R' & A). fold k in P, A. fold cur in P, A.
  assert (SC : spec_cmd c cur = spec_arith (negb (i_increment b)) (i_amount b) (i_saturating b) cur) by (unfold c; destruct (i_increment b); reflexivity).
  rewrite SC in *. pose proof (purge_alive now (abs s) k) as AL. fold cur in AL.
  assert (QQ : forall w, purge now (put k (snd (spec_arith (negb (i_increment b)) (i_amount b) (i_saturating b) cur)) (purge now (abs s))) k = w ->
    reads (fst (inc_execute b s now)) (i_ns b) (i_key b) now (option_map fst w)).
  { intros w W. unfold inc_execute, operate. fold c. rewrite P. assert (S' : forall A (g : output -> outcome A aerr) r, fst (match r with KOk o => (s', g o) | KErr e => (s', Fail (AStore e)) end) = s') by (intros ? ? [|]; reflexivity).
    rewrite S'. apply reads_spec; [exact R'|]. fold k. rewrite <- W. f_equal. symmetry. apply purge_ext, A. }
  assert (TY : forall x, same_type (spec_num (negb (i_increment b)) x (i_amount b) (i_saturating b)) (i_amount b)) by (intros x; unfold spec_num; destruct (i_amount b); exact I).
  assert (TF : forall x, try_from (i_amount b) (spec_num (negb (i_increment b)) x (i_amount b) (i_saturating b)) = Some (spec_num (negb (i_increment b)) x (i_amount b) (i_saturating b)))
    by (intros x; unfold spec_num; destruct (i_amount b); reflexivity).
  unfold spec_arith in *. destruct cur as [[[w|x] t]|] eqn:CU; cbn [option_map fst snd] in B; subst before; cbn [fst snd] in *.
  - split; [unfold inc_execute, operate; fold c; rewrite P; reflexivity|]. apply (QQ (Some (VBytes w, t))). apply purge_put. exact AL.
  - cbv zeta. destruct (is_nan (VNum (spec_num _ x _ _))) eqn:NN; cbn [fst snd] in *.
    + split; [unfold inc_execute, operate; fold c; rewrite P; reflexivity|]. apply (QQ (Some (VNum x, t))). apply purge_put. exact AL.
    + split; [unfold inc_execute, operate; fold c; rewrite P; rewrite TF; reflexivity|]. split; [apply TY|]. eapply (QQ (Some (_, t))). apply purge_put. exact AL.
  - cbv zeta. destruct (is_nan (VNum (spec_num _ (NUInt 0) _ _))) eqn:NN; cbn [fst snd] in *.
    + split; [unfold inc_execute, operate; fold c; rewrite P; reflexivity|]. apply (QQ None). apply purge_put. exact I.
    + split; [unfold inc_execute, operate; fold c; rewrite P; rewrite TF; reflexivity|]. split; [apply TY|]. eapply (QQ (Some (_, None))). apply purge_put. reflexivity.
Qed.

(* a counter: whoever increments a vacant key, in whatever order, amid whatever
   else happens, the key holds the sum (at most the largest u64) *)
Definition bump (ns : option bytes) (key : bytes) (e : event) : option Z :=
  match e with
  | EOp ns' key' (CIncr (NUInt a) true) _ => if bytes_eqb (full_key ns' key') (full_key ns key) then Some a else None
  | _ => None
  end.
Fixpoint total (ns : option bytes) (key : bytes) (es : list event) : Z :=
  match es with [] => 0 | e :: r => match bump ns key e with Some a => a + total ns key r | None => total ns key r end end.
Lemma counter_run ns key es : Forall event_ok es -> Forall (fun e => elsewhere (full_key ns key) e \/ bump ns key e <> None) es ->
  forall m t, 0 <= t <= 2 ^ 64 - 1 -> m (full_key ns key) = Some (VNum (NUInt t), None) ->
  snd (spec_run m es) (full_key ns key) = Some (VNum (NUInt (Z.min (2 ^ 64 - 1) (t + total ns key es))), None) /\ 0 <= total ns key es.
Proof.
  set (k := full_key ns key). induction es as [|e r IH]; intros OK F m t T M.
  - cbn [spec_run snd total]. rewrite M. split; [|lia]. do 4 f_equal. lia.
  - inversion OK as [|? ? O1 O2]; subst. inversion F as [|? ? F1 F2]; subst. cbn [spec_run total].
    destruct (bump ns key e) as [a|] eqn:BU.
    + destruct e as [ns' key' c now| | | | | | |]; try discriminate BU. destruct c as [| | |amt sat|]; try discriminate BU. destruct amt as [|a'|]; try discriminate BU. destruct sat; try discriminate BU.
      cbn [bump] in BU. destruct (bytes_eqb (full_key ns' key') (full_key ns key)) eqn:EK; [|discriminate BU]. injection BU as ->. apply bytes_eqb_spec in EK.
      cbn [spec_event spec_cmd]. rewrite EK. fold k. assert (PM : purge now m k = Some (VNum (NUInt t), None)) by (unfold purge; rewrite M; reflexivity).
      rewrite PM. unfold spec_arith at 1. cbn [fst snd]. cbn [spec_num to_int]. cbn [is_nan].
      match goal with |- context [put k ?c (purge now m)] => set (c1 := c) end.
      cbn [event_ok cmd_ok num_ok] in O1.
      assert (C1 : c1 = Some (VNum (NUInt (Z.min (2 ^ 64 - 1) (t + a))), None)) by (unfold c1, fit, clamp; do 4 f_equal; lia).
      destruct (IH O2 F2 (put k c1 (purge now m)) (Z.min (2 ^ 64 - 1) (t + a))) as (X & Y); [lia|unfold put; rewrite bytes_eqb_refl; exact C1|].
      destruct (spec_run _ r) as [rs m2]. cbn [snd] in *. rewrite X. split; [do 4 f_equal; lia|lia].
    + destruct F1 as [F1|F1]; [|congruence].
      assert (M' : snd (spec_event m e) k = Some (VNum (NUInt t), None)).
      { assert (PM : forall now, purge now m k = Some (VNum (NUInt t), None)) by (intros now; unfold purge; rewrite M; reflexivity).
        destruct e as [ns' key' c now|now| | | | | |]; cbn [spec_event snd]; try exact M; [|apply PM].
        cbn [elsewhere] in F1. destruct (spec_cmd c _) as [q w]. cbn [snd]. unfold put. assert (N0 : bytes_eqb k (full_key ns' key') = false).
        { destruct (bytes_eqb k (full_key ns' key')) eqn:Z1; [|reflexivity]. apply bytes_eqb_spec in Z1. congruence. }
        rewrite N0. apply PM. }
      destruct (spec_event m e) as [o m1]. cbn [snd] in M'. destruct (IH O2 F2 m1 t T M') as (X & Y). destruct (spec_run m1 r) as [rs m2]. cbn [snd] in *. split; [exact X|exact Y].
Qed.
Theorem C77_counter : forall s h key a now es rs s2 now2, reachable_kv s -> 0 <= a <= 2 ^ 64 - 1 -> reads s (key_namespace h) key now None ->
  Forall no_loader es -> Forall event_ok es ->
  Forall (fun e => elsewhere (full_key (key_namespace h) key) e \/ bump (key_namespace h) key e <> None) es ->
  run (fst (inc_execute (increment_key_by h key (NUInt a)) s now)) es = Some (rs, s2) ->
  snd (into_u64 (get_key h key) s2 now2) = Done (Some (Z.min (2 ^ 64 - 1) (a + total (key_namespace h) key es))).
Proof.
  intros s h key a now es rs s2 now2 R A B NL OK F. apply (reads_spec s _ _ now None R) in B. set (ns := key_namespace h) in *. set (k := full_key ns key) in *.
  destruct (reach_perform s ns key (CIncr (NUInt a) true) now R A) as (s1 & P & R1 & A1). fold k in P, A1.
  destruct (purge now (abs s) k) as [c|] eqn:CU; [discriminate B|].
  unfold inc_execute, operate, increment_key_by. cbn [i_ns i_key i_increment i_amount i_saturating]. fold ns. rewrite P.
  cbn [spec_cmd] in *. unfold spec_arith in *. cbn [fst snd] in *. cbn [spec_num to_int is_nan] in *. cbn [fst snd try_from] in *. intros E.
  destruct (reach_run s1 es rs s2 R1 NL OK E) as (R2 & A2).
  assert (M1 : abs s1 k = Some (VNum (NUInt a), None)).
  { rewrite A1. unfold put. rewrite bytes_eqb_refl. unfold fit, clamp. do 4 f_equal. lia. }
  destruct (counter_run ns key es OK F (abs s1) a A M1) as (X & _).
  assert (Q : reads s2 ns key now2 (Some (VNum (NUInt (Z.min (2 ^ 64 - 1) (a + total ns key es)))))).
  { apply reads_spec; [exact R2|]. fold k. unfold purge. rewrite A2. fold k in X. rewrite X. reflexivity. }
  unfold into_u64, map_result, get_key. fold ns. cbn [snd]. rewrite (query_reads _ _ _ _ _ Q). reflexivity.
Qed.

(* ================= conversions ================= *)
Lemma pow_pos e : 0 < 2 ^ Z.max 0 e. Proof. apply Z.pow_pos_nonneg; lia. Qed.
Lemma trunc_exact s m e z : fract_num m e = 0 -> (exactly (NFloat (S754_finite s m e)) z <-> z = sf_trunc s m e).
Proof.
  unfold fract_num, sf_trunc, exactly. destruct (Z.leb_spec 0 e) as [L|L]; intros F.
  - rewrite Z.max_r, Z.max_l by lia. rewrite Z.pow_0_r. destruct s; lia.
  - rewrite Z.max_l, Z.max_r by lia. rewrite Z.pow_0_r. assert (P : 0 < 2 ^ (- e)) by (apply Z.pow_pos_nonneg; lia).
    pose proof (Z.div_mod (Zpos m) (2 ^ (- e)) ltac:(lia)) as D. rewrite F in D. set (q := Zpos m / 2 ^ (- e)) in *.
    destruct s; split; intros H; try nia.
Qed.
Lemma exact_fract s m e z : exactly (NFloat (S754_finite s m e)) z -> fract_num m e = 0.
Proof.
  unfold exactly, fract_num. destruct (Z.leb_spec 0 e) as [L|L]; [reflexivity|]. rewrite Z.max_l, Z.max_r by lia. rewrite Z.pow_0_r.
  assert (P : 0 < 2 ^ (- e)) by (apply Z.pow_pos_nonneg; lia). intros H.
  assert (H' : Zpos m = (if s then - z else z) * 2 ^ (- e)) by (destruct s; lia). rewrite H'. apply Z.mod_mul. lia.
Qed.
Lemma sat_i64_id z : - 2 ^ 63 <= z <= 2 ^ 63 - 1 -> sat_i64 z = z.
Proof. intros H. unfold sat_i64, i64_min, i64_max. destruct (Z.ltb_spec z (- 2 ^ 63)); [lia|]. destruct (Z.ltb_spec (2 ^ 63 - 1) z); lia. Qed.
Lemma sat_u64_id z : 0 <= z <= 2 ^ 64 - 1 -> sat_u64 z = z.
Proof. intros H. unfold sat_u64, u64_max. destruct (Z.ltb_spec z 0); [lia|]. destruct (Z.ltb_spec (2 ^ 64 - 1) z); lia. Qed.

(* a stored number that is an i64 is read as that i64; a number that is not one is
   refused, except floats with no fraction that are too large *)
Definition huge_i64 (x : numeric) : Prop :=
  match x with NFloat (S754_infinity _) => True | NFloat (S754_finite s m e) => exists z, exactly x z /\ ~ (- 2 ^ 63 <= z <= 2 ^ 63 - 1) | _ => False end.
Theorem C77_into_i64 : forall s ns key now x, reachable_kv s -> num_ok x -> is_nan (VNum x) = false -> reads s ns key now (Some (VNum x)) ->
  (forall z, exactly x z -> - 2 ^ 63 <= z <= 2 ^ 63 - 1 -> snd (into_i64 (GetB ns key false) s now) = Done (Some z)) /\
  (forall r, snd (into_i64 (GetB ns key false) s now) = Done r -> ~ huge_i64 x -> exists z, r = Some z /\ exactly x z /\ - 2 ^ 63 <= z <= 2 ^ 63 - 1).
Proof.
  intros s ns key now x R O NN Q. unfold into_i64, map_result. cbn [snd]. rewrite (query_reads _ _ _ _ _ Q). cbn [convert].
  destruct x as [y|y|f]; cbn [as_i64 num_ok exactly huge_i64] in *.
  - split; [intros z <- _; reflexivity|]. intros r [= <-] _. eauto.
  - unfold is_i64, i64_min, i64_max. destruct ((- 2 ^ 63 <=? y) && (y <=? 2 ^ 63 - 1)) eqn:B.
    + split; [intros z <- _; reflexivity|]. intros r [= <-] _. exists y. split; [reflexivity|]. split; [reflexivity|lia].
    + split; [intros z <- H; lia|discriminate].
  - destruct f as [sg|sg| |sg m e].
    + split; [intros z -> _; reflexivity|]. intros r [= <-] _. exists 0. split; [reflexivity|]. split; [reflexivity|lia].
    + split; [intros z []|]. intros r _ N0. elim N0. exact I.
    + discriminate NN.
    + split.
      * intros z E RG. rewrite (exact_fract sg m e z E). cbn [Z.eqb f_as_i64]. apply (trunc_exact sg m e z (exact_fract sg m e z E)) in E. rewrite <- E, sat_i64_id by exact RG. reflexivity.
      * intros r. destruct (Z.eqb_spec (fract_num m e) 0) as [F|F]; [|discriminate]. intros [= <-] N0. cbn [f_as_i64].
        assert (E : exactly (NFloat (S754_finite sg m e)) (sf_trunc sg m e)) by (apply trunc_exact; [exact F|reflexivity]).
        assert (RG : - 2 ^ 63 <= sf_trunc sg m e <= 2 ^ 63 - 1).
        { destruct (Z_le_dec (- 2 ^ 63) (sf_trunc sg m e)); [destruct (Z_le_dec (sf_trunc sg m e) (2 ^ 63 - 1)); [lia|]|]; (elim N0; exists (sf_trunc sg m e); split; [exact E|lia]). }
        exists (sf_trunc sg m e). rewrite sat_i64_id by exact RG. auto.
Qed.
(* FINDING: infinities and floats beyond i64 are not refused *)
Theorem C77_into_i64_refuted : forall s ns key now, reachable_kv s -> reads s ns key now (Some (VNum (NFloat (S754_infinity false)))) ->
  snd (into_i64 (GetB ns key false) s now) = Done (Some (2 ^ 63 - 1)).
Proof. intros s ns key now R Q. unfold into_i64, map_result. cbn [snd]. rewrite (query_reads _ _ _ _ _ Q). reflexivity. Qed.
Theorem C77_into_i64_saturates_refuted : forall s ns key now m e, reachable_kv s -> 63 <= e -> reads s ns key now (Some (VNum (NFloat (S754_finite false m e)))) ->
  snd (into_i64 (GetB ns key false) s now) = Done (Some (2 ^ 63 - 1)).
Proof.
  intros s ns key now m e R L Q. unfold into_i64, map_result. cbn [snd]. rewrite (query_reads _ _ _ _ _ Q). cbn [convert as_i64].
  unfold fract_num. assert (L0 : (0 <=? e) = true) by lia. rewrite L0. cbn [Z.eqb f_as_i64]. unfold sf_trunc. rewrite L0. unfold sat_i64, i64_min, i64_max.
  assert (2 ^ 63 <= 2 ^ e) by (apply Z.pow_le_mono_r; lia). destruct (Z.ltb_spec (Zpos m * 2 ^ e) (- 2 ^ 63)); [nia|]. destruct (Z.ltb_spec (2 ^ 63 - 1) (Zpos m * 2 ^ e)); [reflexivity|nia].
Qed.

(* the same for u64; a negative zero is refused, a fraction below 2^-52 is dropped *)
Definition odd_u64 (x : numeric) : Prop :=
  match x with
  | NFloat (S754_finite s m e) => (exists z, exactly x z /\ 2 ^ 64 <= z) \/ (fract_num m e <> 0 /\ (fract_num m e) * 2 ^ 52 < 2 ^ (- e))
  | _ => False
  end.
Theorem C77_into_u64 : forall s ns key now x, reachable_kv s -> num_ok x -> is_nan (VNum x) = false -> reads s ns key now (Some (VNum x)) ->
  (forall z, exactly x z -> 0 <= z <= 2 ^ 64 - 1 -> x <> NFloat (S754_zero true) -> snd (into_u64 (GetB ns key false) s now) = Done (Some z)) /\
  (forall r, snd (into_u64 (GetB ns key false) s now) = Done r -> ~ odd_u64 x -> exists z, r = Some z /\ exactly x z /\ 0 <= z <= 2 ^ 64 - 1).
Proof.
  intros s ns key now x R O NN Q. unfold into_u64, map_result. cbn [snd]. rewrite (query_reads _ _ _ _ _ Q). cbn [convert].
  destruct x as [y|y|f]; cbn [as_u64 num_ok exactly odd_u64] in *.
  - unfold is_u64, u64_max. destruct ((0 <=? y) && (y <=? 2 ^ 64 - 1)) eqn:B.
    + split; [intros z <- _ _; reflexivity|]. intros r [= <-] _. exists y. split; [reflexivity|]. split; [reflexivity|lia].
    + split; [intros z <- H; lia|discriminate].
  - split; [intros z <- _ _; reflexivity|]. intros r [= <-] _. eauto.
  - destruct f as [sg|sg| |sg m e].
    + destruct sg.
      * split; [intros z -> _ N0; congruence|discriminate].
      * split; [intros z -> _ _; reflexivity|]. intros r [= <-] _. exists 0. split; [reflexivity|]. split; [reflexivity|lia].
    + split; [intros z []|discriminate].
    + discriminate NN.
    + split.
      * intros z E RG _. rewrite (exact_fract sg m e z E). assert (SG : sg = false).
        { destruct sg; [|reflexivity]. cbn [exactly] in E. pose proof (pow_pos e). pose proof (pow_pos (- e)). nia. }
        subst sg. rewrite Z.mul_0_l. pose proof (pow_pos (- e)) as PP. destruct (Z.ltb_spec 0 (2 ^ Z.max 0 (- e))); [|lia]. cbn [negb andb f_as_u64].
        apply (trunc_exact false m e z (exact_fract false m e z E)) in E. rewrite <- E, sat_u64_id by exact RG. reflexivity.
      * intros r. destruct (negb sg && _) eqn:B; [|discriminate]. intros [= <-] N0. apply andb_true_iff in B. destruct B as (B1 & B2). destruct sg; [discriminate B1|]. apply Z.ltb_lt in B2.
        assert (F : fract_num m e = 0).
        { destruct (Z.eq_dec (fract_num m e) 0) as [F|F]; [exact F|]. elim N0. right. split; [exact F|]. unfold fract_num in *. destruct (Z.leb_spec 0 e); [congruence|]. rewrite Z.max_r in B2 by lia. exact B2. }
        cbn [f_as_u64]. assert (E : exactly (NFloat (S754_finite false m e)) (sf_trunc false m e)) by (apply trunc_exact; [exact F|reflexivity]).
        assert (P0 : 0 <= sf_trunc false m e). { unfold sf_trunc. destruct (Z.leb_spec 0 e); [assert (0 <= 2 ^ e) by (apply Z.pow_nonneg; lia); nia|apply Z.div_pos; [lia|apply Z.pow_pos_nonneg; lia]]. }
        assert (RG : 0 <= sf_trunc false m e <= 2 ^ 64 - 1).
        { destruct (Z_le_dec (sf_trunc false m e) (2 ^ 64 - 1)); [lia|]. elim N0. left. exists (sf_trunc false m e). split; [exact E|lia]. }
        exists (sf_trunc false m e). rewrite sat_u64_id by exact RG. auto.
Qed.
(* FINDING: 2^-60 is read as the u64 0; 2^70 as the largest u64 *)
Theorem C77_into_u64_refuted : forall s ns key now, reachable_kv s ->
  (reads s ns key now (Some (VNum (NFloat (S754_finite false 4503599627370496 (-112))))) -> snd (into_u64 (GetB ns key false) s now) = Done (Some 0)) /\
  (reads s ns key now (Some (VNum (NFloat (S754_finite false 4503599627370496 18)))) -> snd (into_u64 (GetB ns key false) s now) = Done (Some (2 ^ 64 - 1))).
Proof.
  intros s ns key now R. split; intros Q; unfold into_u64, map_result; cbn [snd]; rewrite (query_reads _ _ _ _ _ Q); reflexivity.
Qed.

(* integers up to 2^53 in either direction are floats exactly *)
Lemma digits_shift n : forall p, digits2_pos (shift_pos n p) = (n + digits2_pos p)%positive.
Proof.
  unfold shift_pos. induction n using Pos.peano_ind; intros p; [cbn [Pos.iter digits2_pos]; lia|].
  rewrite Pos.iter_succ. cbn [digits2_pos]. rewrite IHn. lia.
Qed.
Lemma shift_value n : forall p, Zpos (shift_pos n p) = Zpos p * 2 ^ Zpos n.
Proof.
  unfold shift_pos. induction n using Pos.peano_ind; intros p; [cbn [Pos.iter]; change (2 ^ 1) with 2; lia|].
  rewrite Pos.iter_succ, Pos2Z.inj_xO, IHn, Pos2Z.inj_succ, Z.pow_succ_r by lia. lia.
Qed.
Lemma digits_bound p : 2 ^ (Zpos (digits2_pos p) - 1) <= Zpos p < 2 ^ Zpos (digits2_pos p).
Proof.
  induction p as [p IH|p IH|]; cbn [digits2_pos]; [| |cbn; lia]; rewrite Pos2Z.inj_succ, Z.pow_succ_r by lia;
    replace (Z.succ (Zpos (digits2_pos p)) - 1) with (Z.succ (Zpos (digits2_pos p) - 1)) by lia; rewrite Z.pow_succ_r by lia; lia.
Qed.
Lemma round_exact sg m : Zpos m < 2 ^ 53 -> exactly (NFloat (binary_round 53 1024 sg m 0)) (if sg then Zneg m else Zpos m).
Proof.
  intros L. pose proof (digits_bound m) as DB. set (d := digits2_pos m) in *.
  assert (D53 : Zpos d <= 53). { destruct (Z_le_dec (Zpos d) 53); [assumption|]. assert (2 ^ 53 <= 2 ^ (Zpos d - 1)) by (apply Z.pow_le_mono_r; lia). lia. }
  assert (AL : exists mz ez, shl_align m 0 (fexp 53 1024 (Zpos d + 0)) = (mz, ez) /\ ez = Zpos d - 53 /\ Zpos mz = Zpos m * 2 ^ (53 - Zpos d) /\ digits2_pos mz = 53%positive).
  { unfold shl_align, fexp, emin. rewrite Z.add_0_r, Z.max_l, Z.sub_0_r by lia.
    destruct (Zpos d - 53) as [|q|q] eqn:E; [| |].
    - exists m, 0. split; [reflexivity|]. split; [reflexivity|]. replace (53 - Zpos d) with 0 by lia. split; [lia|]. fold d. lia.
    - lia.
    - exists (shift_pos q m), (Zneg q). split; [reflexivity|]. split; [reflexivity|]. split; [rewrite shift_value; f_equal; f_equal; lia|]. rewrite digits_shift. fold d. lia. }
  destruct AL as (mz & ez & AL & EZ & MZ & DZ). unfold binary_round. fold d. rewrite AL. unfold binary_round_aux, shr_fexp.
  assert (SH : fexp 53 1024 (Zdigits2 (Zpos mz) + ez) - ez = 0). { cbn [Zdigits2]. rewrite DZ. unfold fexp, emin. lia. }
  rewrite SH. cbn [shr shr_record_of_loc shr_m shr_r shr_s loc_of_shr_record round_nearest_even]. rewrite SH. cbn [shr shr_record_of_loc shr_m].
  assert (LE : Z.leb ez (1024 - 53) = true) by lia. rewrite LE. cbn [exactly]. rewrite Z.max_l by lia. replace (Z.max 0 (- ez)) with (53 - Zpos d) by lia. rewrite Z.pow_0_r.
  destruct sg; [|lia]. change (Zneg mz) with (- Zpos mz). change (Zneg m) with (- Zpos m). lia.
Qed.
Lemma as_f64_exact z : - 2 ^ 53 <= z <= 2 ^ 53 -> exactly (NFloat (z_as_f64 z)) z.
Proof.
  intros H. unfold z_as_f64, binary_normalize. destruct z as [|m|m]; [reflexivity| |].
  - destruct (Z.eq_dec (Zpos m) (2 ^ 53)) as [E|E]; [|apply (round_exact false); lia]. injection E as ->. vm_compute. reflexivity.
  - destruct (Z.eq_dec (Zpos m) (2 ^ 53)) as [E|E]; [|apply (round_exact true); lia]. injection E as ->. vm_compute. reflexivity.
Qed.
Theorem C77_into_f64 : forall s ns key now x, reachable_kv s -> num_ok x -> reads s ns key now (Some (VNum x)) ->
  match x with
  | NFloat f => snd (into_f64 (GetB ns key false) s now) = Done (Some f)
  | NInt z | NUInt z => if Z.abs z <=? 2 ^ 53 then exists f, snd (into_f64 (GetB ns key false) s now) = Done (Some f) /\ exactly (NFloat f) z
                        else snd (into_f64 (GetB ns key false) s now) = Fail ALossy
  end.
Proof.
  intros s ns key now x R O Q. unfold into_f64, map_result. cbn [snd]. rewrite (query_reads _ _ _ _ _ Q). cbn [convert].
  destruct x as [z|z|f]; cbn [as_f64 num_ok] in *; [| |reflexivity].
  - destruct ((2 ^ 53 <? z) || (z <? - 2 ^ 53)) eqn:B; destruct (Z.leb_spec (Z.abs z) (2 ^ 53)); try lia; [reflexivity|]. eexists. split; [reflexivity|]. apply as_f64_exact. lia.
  - destruct (2 ^ 53 <? z) eqn:B; destruct (Z.leb_spec (Z.abs z) (2 ^ 53)); try lia; [reflexivity|]. eexists. split; [reflexivity|]. apply as_f64_exact. lia.
Qed.

(* the lossy reads always succeed on a number; integers are clamped or wrapped *)
Theorem C77_lossy : forall s ns key now x sat, reachable_kv s -> num_ok x -> reads s ns key now (Some (VNum x)) ->
  snd (into_i64_lossy (GetB ns key false) sat s now) = Done (Some (to_int sat (- 2 ^ 63) (2 ^ 63 - 1) x)) /\
  snd (into_u64_lossy (GetB ns key false) sat s now) = Done (Some (to_int sat 0 (2 ^ 64 - 1) x)) /\
  snd (into_f64_lossy (GetB ns key false) s now) = Done (Some (to_float x)).
Proof.
  intros s ns key now x sat R O Q. unfold into_i64_lossy, into_u64_lossy, into_f64_lossy, map_result. cbn [snd]. rewrite (query_reads _ _ _ _ _ Q). cbn [convert].
  rewrite (to_int_i64 x sat O), (to_int_u64 x sat O). split; [reflexivity|]. split; [reflexivity|]. destruct x; reflexivity.
Qed.

(* ================= no call panics ================= *)
Theorem C77_no_panic : forall s now, reachable_kv s ->
  (forall V (C : serde V) b, pending_ok (b_value b) ->
     (snd (execute C b s now) <> Panic /\ reachable_kv (fst (execute C b s now))) /\
     (snd (returning_previous C b s now) <> Panic /\ reachable_kv (fst (returning_previous C b s now))) /\
     forall U (D : serde U), snd (returning_previous_as C D b s now) <> Panic) /\
  (forall b, (snd (query b s now) <> Panic /\ reachable_kv (fst (query b s now))) /\
     (forall V (C : serde V), snd (get_into C b s now) <> Panic) /\
     snd (into_u64 b s now) <> Panic /\ snd (into_i64 b s now) <> Panic /\ snd (into_f64 b s now) <> Panic /\
     forall sat, snd (into_u64_lossy b sat s now) <> Panic /\ snd (into_i64_lossy b sat s now) <> Panic /\ snd (into_f64_lossy b s now) <> Panic) /\
  (forall b, num_ok (i_amount b) -> snd (inc_execute b s now) <> Panic /\ reachable_kv (fst (inc_execute b s now))) /\
  (forall h key, snd (delete_key h key s now) <> Panic /\ reachable_kv (fst (delete_key h key s now))).
Proof.
  intros s now R.
  assert (G : forall A ns key c (read : output -> outcome A aerr), cmd_ok c ->
    (forall o, fst (spec_cmd c (purge now (abs s) (full_key ns key))) = KOk o -> read o <> Panic) ->
    snd (operate s ns key c now read) <> Panic /\ reachable_kv (fst (operate s ns key c now read))).
  { intros A ns key c read CO RD. unfold operate. destruct (reach_perform s ns key c now R CO) as (s' & -> & R' & _).
    destruct (fst (spec_cmd c _)) as [o|e] eqn:E; cbn [fst snd]; (split; [|exact R']); [apply RD; reflexivity|discriminate]. }
  assert (Q : forall b, snd (query b s now) <> Panic /\ reachable_kv (fst (query b s now))).
  { intros b. unfold query. apply G; [exact I|]. intros o. destruct (g_delete b); cbn [spec_cmd fst]; intros [= <-]; cbn; discriminate. }
  assert (DC : forall V (C : serde V) o, decode_opt C o <> Panic).
  { intros V C [[b|x]|]; cbn; try discriminate. destruct (from_slice C b); discriminate. }
  assert (CV : forall A (f : numeric -> option A) e o, convert f e o <> Panic).
  { intros A f e [[b|x]|]; cbn; try discriminate. destruct (f x); discriminate. }
  assert (MR : forall A B (f : A -> outcome B aerr) r, (forall a, f a <> Panic) -> snd r <> Panic -> snd (map_result f r) <> Panic).
  { intros A B f r F S. unfold map_result. cbn [snd]. destruct (snd r); [apply F|discriminate|congruence]. }
  split; [|split; [|split]].
  - intros V C b PO.
    assert (SG : forall A ret (read : output -> outcome A aerr) v, prepare C (b_value b) = Some v ->
      (forall x, (if ret : bool then read (OValue x) <> Panic else True)) -> (forall st, (if ret : bool then st = NotChanged else True) -> read (OStatus st) <> Panic) ->
      snd (operate s (b_ns b) (b_key b) (CSet (SetCmd v (b_exp b) (b_keep b) (b_check b) ret)) now read) <> Panic /\
      reachable_kv (fst (operate s (b_ns b) (b_key b) (CSet (SetCmd v (b_exp b) (b_keep b) (b_check b) ret)) now read))).
    { intros A ret read v P RV RS. apply G; [exact (prepare_ok C _ _ PO P)|]. intros o. cbn [spec_cmd s_val s_check s_ret s_keep s_exp].
      destruct (is_nan v); [discriminate|]. match goal with |- context [if ?c then (KOk (OStatus NotChanged), _) else _] => destruct c end; cbn [fst]; intros [= <-].
      - apply RS. destruct ret; [reflexivity|exact I].
      - destruct ret; [apply RV|apply RS, I]. }
    assert (X : snd (returning_previous C b s now) <> Panic /\ reachable_kv (fst (returning_previous C b s now))).
    { unfold returning_previous. destruct (prepare C (b_value b)) as [v|] eqn:P; [|split; [discriminate|exact R]]. apply SG; [reflexivity|cbn; discriminate|]. intros st; cbn; intros ->. discriminate. }
    split; [|split; [exact X|]].
    + unfold execute. destruct (prepare C (b_value b)) as [v|] eqn:P; [|split; [discriminate|exact R]]. apply SG; [reflexivity|intros x; exact I|cbn; discriminate].
    + intros U D. unfold returning_previous_as. apply MR; [apply DC|apply X].
  - intros b. split; [apply Q|]. split; [intros V C; apply MR; [apply DC|apply Q]|].
    split; [apply MR; [apply CV|apply Q]|]. split; [apply MR; [apply CV|apply Q]|]. split; [apply MR; [apply CV|apply Q]|]. intros sat.
    split; [apply MR; [apply CV|apply Q]|]. split; apply MR; try apply CV; apply Q.
  - intros b O. unfold inc_execute. apply G; [destruct (i_increment b); exact O|]. intros o.
    assert (SC : forall cur, spec_cmd (if i_increment b then CIncr (i_amount b) (i_saturating b) else CDecr (i_amount b) (i_saturating b)) cur =
      spec_arith (negb (i_increment b)) (i_amount b) (i_saturating b) cur) by (intros cur; destruct (i_increment b); reflexivity).
    rewrite SC. unfold spec_arith. cbv zeta. generalize (purge now (abs s) (full_key (i_ns b) (i_key b))). intros cur. generalize (match cur with Some c => c | None => (VNum (NUInt 0), None) end). intros [[w|x] ee]; cbn [fst snd]; [intros [=]|].
    destruct (is_nan _); cbn [fst]; [intros [=]|]. intros [= <-].
    unfold spec_num. destruct (i_amount b); cbn [try_from]; discriminate.
  - intros h key. unfold delete_key. apply G; [exact I|]. intros o. cbn [spec_cmd fst]. intros [= <-]. destruct (purge _ _ _); cbn; discriminate.
Qed.

(* ================= expirations ================= *)
(* a key set to expire at a time after the epoch gets exactly that time *)
Theorem C77_expire_at : forall V (b : set_builder V) time, 0 <= time ->
  exists b' t, expire_at b time = Done b' /\ b_exp b' = Some t /\ Z.of_N (ts_dur t) = time /\
    b_ns b' = b_ns b /\ b_key b' = b_key b /\ b_value b' = b_value b /\ b_keep b' = b_keep b /\ b_check b' = b_check b.
Proof.
  intros V b time H. unfold expire_at, from_system_time. destruct (Z.ltb_spec time 0); [lia|]. eexists _, _. split; [reflexivity|]. cbn [b_exp b_ns b_key b_value b_keep b_check].
  split; [reflexivity|]. split; [|repeat split]. unfold ts_dur. cbn [t_sec t_nano]. rewrite N2Z.inj_add, N2Z.inj_mul, !Z2N.id by (try apply Z.div_pos; try apply Z.mod_pos_bound; lia).
  change (Z.of_N 1000000000) with 1000000000. pose proof (Z.div_mod time 1000000000). lia.
Qed.
(* FINDING: a time before 1970 panics, and so does a duration that is too long *)
Theorem C77_expire_refuted : forall V (b : set_builder V),
  (forall time, time < 0 -> expire_at b time = Panic) /\
  (forall clock d, 0 <= clock -> 2 ^ 63 * 1000000000 <= d -> expire_in b clock d = Panic).
Proof.
  intros V b. split.
  - intros time H. unfold expire_at, from_system_time. destruct (Z.ltb_spec time 0); [reflexivity|lia].
  - intros clock d H L. unfold expire_in, sys_add. destruct (Z.ltb_spec ((clock + d) / 1000000000) (2 ^ 63)) as [Q|Q]; [|reflexivity].
    assert (2 ^ 63 <= (clock + d) / 1000000000) by (apply Z.div_le_lower_bound; lia). lia.
Qed.

(* ================= the builders ================= *)
(* the methods called on a set before it is sent, in order; [At]: keyvalue times since the epoch *)
Inductive set_step := At (time : Z) | In_ (clock duration : Z) | Keep | IfExists | IfVacant.
Definition set_call {V} (b : outcome (set_builder V) aerr) (c : set_step) : outcome (set_builder V) aerr :=
  match b with
  | Done b => match c with
              | At t => expire_at b t | In_ k d => expire_in b k d | Keep => Done (keep_existing_expiration b)
              | IfExists => Done (only_if_exists b) | IfVacant => Done (only_if_vacant b)
              end
  | r => r
  end.
Definition time_of (c : set_step) : option Z := match c with At t => Some t | In_ k d => Some (k + d) | _ => None end.
Definition check_of (c : set_step) : option kcheck := match c with IfExists => Some OnlyIfPresent | IfVacant => Some OnlyIfVacant | _ => None end.
Definition is_keep (c : set_step) : bool := match c with Keep => true | _ => false end.
Fixpoint last_of {A B} (f : A -> option B) (d : option B) (l : list A) : option B :=
  match l with [] => d | x :: r => last_of f (match f x with Some y => Some y | None => d end) r end.
Lemma set_calls_stuck {V} l : forall r : outcome (set_builder V) aerr, (forall b, r <> Done b) -> fold_left set_call l r = r.
Proof. induction l as [|c l IH]; intros r H; [reflexivity|]. cbn [fold_left]. assert (E : set_call r c = r) by (destruct r; [exfalso; eapply H; reflexivity|reflexivity|reflexivity]). rewrite E. apply IH, H. Qed.
Lemma set_builders_from {V} l : forall b b' : set_builder V, fold_left set_call l (Done b) = Done b' ->
  b_ns b' = b_ns b /\ b_key b' = b_key b /\ b_value b' = b_value b /\
  b_keep b' = (b_keep b || existsb is_keep l)%bool /\ b_check b' = last_of check_of (b_check b) l /\
  option_map (fun t => Z.of_N (ts_dur t)) (b_exp b') = last_of time_of (option_map (fun t => Z.of_N (ts_dur t)) (b_exp b)) l.
Proof.
  induction l as [|c l IH]; intros b b' E.
  - cbn in E. injection E as <-. cbn [existsb last_of]. rewrite Bool.orb_false_r. repeat split.
  - cbn [fold_left] in E. destruct (set_call (Done b) c) as [b1| |] eqn:C; [|rewrite set_calls_stuck in E by discriminate; discriminate|rewrite set_calls_stuck in E by discriminate; discriminate].
    apply IH in E as (-> & -> & -> & -> & -> & ->). cbn [existsb last_of].
    assert (AT : forall time, expire_at b time = Done b1 -> b_ns b1 = b_ns b /\ b_key b1 = b_key b /\ b_value b1 = b_value b /\ b_keep b1 = b_keep b /\ b_check b1 = b_check b /\
      option_map (fun t => Z.of_N (ts_dur t)) (b_exp b1) = Some time).
    { intros time X. destruct (Z.ltb_spec time 0) as [G|G].
      - rewrite (proj1 (C77_expire_refuted V b) time G) in X. discriminate.
      - destruct (C77_expire_at V b time G) as (b2 & t & Y & E1 & E2 & E3 & E4 & E5 & E6 & E7). rewrite Y in X. injection X as <-. rewrite E1. cbn [option_map]. rewrite E2. repeat split; assumption. }
    destruct c as [time|k d| | |]; cbn [set_call is_keep time_of check_of orb] in *.
    + apply AT in C as (-> & -> & -> & -> & -> & ->). repeat split.
    + unfold expire_in, sys_add in C. destruct (_ <? 2 ^ 63); [|discriminate]. apply AT in C as (-> & -> & -> & -> & -> & ->). repeat split.
    + injection C as <-. cbn [keep_existing_expiration b_ns b_key b_value b_exp b_keep b_check]. rewrite Bool.orb_true_r. repeat split.
    + injection C as <-. repeat split.
    + injection C as <-. repeat split.
Qed.
(* a set keeps its namespace, key and value whatever is called on it; its expiration is the
   last one given, its condition the last one given, and "keep" stays once asked for *)
Theorem C77_builders : forall V (h : handle) key (p : pending V) l b, fold_left set_call l (Done (set_new h key p)) = Done b ->
  b_ns b = key_namespace h /\ b_key b = key /\ b_value b = p /\ b_keep b = existsb is_keep l /\ b_check b = last_of check_of None l /\
  option_map (fun t => Z.of_N (ts_dur t)) (b_exp b) = last_of time_of None l.
Proof. intros V h key p l b E. apply set_builders_from in E. exact E. Qed.
(* and nothing stops a set with times after 1970 that an i64 of seconds holds *)
Theorem C77_builders_ok : forall V (h : handle) key (p : pending V) l,
  Forall (fun c => match time_of c with Some t => 0 <= t < 2 ^ 63 * 1000000000 | None => True end) l ->
  exists b, fold_left set_call l (Done (set_new h key p)) = Done b.
Proof.
  intros V h key p l. generalize (set_new h key p). induction l as [|c l IH]; intros b F; [eexists; reflexivity|].
  inversion F as [|? ? O F']; subst. cbn [fold_left]. enough (exists b1, set_call (Done b) c = Done b1) as (b1 & ->) by (apply IH; exact F').
  destruct c as [t|k d| | |]; cbn [set_call time_of] in *; try (eexists; reflexivity).
  - destruct (C77_expire_at V b t) as (b1 & _ & X & _); [lia|]. exists b1. exact X.
  - destruct (C77_expire_at V b (k + d)) as (b1 & _ & X & _); [lia|]. exists b1. unfold expire_in, sys_add.
    destruct (Z.ltb_spec ((k + d) / 1000000000) (2 ^ 63)) as [L|L]; [exact X|]. assert ((k + d) / 1000000000 < 2 ^ 63) by (apply Z.div_lt_upper_bound; lia). lia.
Qed.

(* ================= typed reads ================= *)
(* a deserializing read answers for what a plain read finds, and removes the key exactly
   when [and_delete] was asked for; a missing key is None for every kind of read *)
Theorem C77_typed_reads : forall V (C : serde V) s h key now v sat times, reachable_kv s -> reads s (key_namespace h) key now v ->
  let b := Nat.iter times and_delete (get_key h key) in
  snd (get_into C b s now) = match v with
                             | None => Done None
                             | Some (VBytes x) => match from_slice C x with Some y => Done (Some y) | None => Fail ADeserialize end
                             | Some (VNum _) => Fail ANotSerialized
                             end /\
  reads (fst (get_into C b s now)) (key_namespace h) key now (if (times =? 0)%nat then v else None) /\
  (v = None -> snd (into_u64 b s now) = Done None /\ snd (into_i64 b s now) = Done None /\ snd (into_f64 b s now) = Done None /\
    snd (into_u64_lossy b sat s now) = Done None /\ snd (into_i64_lossy b sat s now) = Done None /\ snd (into_f64_lossy b s now) = Done None).
Proof.
  intros V C s h key now v sat times R Q b. pose proof Q as Q0. apply (reads_spec s _ _ now v R) in Q.
  destruct (query_spec s b now R) as (s' & E & R' & A).
  assert (K : g_ns b = key_namespace h /\ g_key b = key /\ g_delete b = negb (times =? 0)%nat) by (subst b; clear; destruct times as [|m]; [repeat split|]; induction m as [|m IH]; [repeat split|destruct IH as (I1 & I2 & _); cbn [Nat.iter nat_rect and_delete g_ns g_key g_delete] in *; repeat split; assumption]).
  destruct K as (K1 & K2 & K3). rewrite K1, K2, K3 in *. rewrite <- Q in E.
  unfold get_into, into_u64, into_i64, into_f64, into_u64_lossy, into_i64_lossy, into_f64_lossy, map_result. rewrite E. cbn [fst snd].
  split; [destruct v as [[x|x]|]; cbn [decode_opt deserialize]; try reflexivity; destruct (from_slice C x); reflexivity|]. split; [|intros ->; repeat split].
  apply reads_spec; [exact R'|]. rewrite (purge_ext now _ _ A). destruct (times =? 0)%nat; cbn [negb].
  - rewrite Q. rewrite (purge_put now _ (purge now (abs s) (full_key (key_namespace h) key)) (purge now (abs s)) (purge_alive now (abs s) (full_key (key_namespace h) key))). reflexivity.
  - unfold purge, put. rewrite bytes_eqb_refl. reflexivity.
Qed.
(* the value a set replaces, read as a type: the same as reading it as that type before *)
Theorem C77_previous_as : forall V U (C : serde V) (D : serde U) (b : set_builder V) s now v before,
  reachable_kv s -> pending_ok (b_value b) -> prepare C (b_value b) = Some v -> is_nan v = false -> holds (b_check b) before ->
  reads s (b_ns b) (b_key b) now before ->
  snd (returning_previous_as C D b s now) = snd (get_into D (GetB (b_ns b) (b_key b) false) s now) /\
  fst (returning_previous_as C D b s now) = fst (returning_previous C b s now).
Proof.
  intros V U C D b s now v before R PO P NN H B. destruct (C77_set V C b s now v before R PO P B) as (_ & _ & X). destruct (X NN H) as (_ & E & _).
  unfold returning_previous_as, get_into, map_result. cbn [fst snd]. rewrite E, B. auto.
Qed.

(* ================= increments of integers, in plain arithmetic ================= *)
(* an unsigned counter, from any unsigned value: up and down; at the ends of the range it
   stops, or wraps around if overflow was allowed *)
Theorem C77_arith : forall s h key now x a m, reachable_kv s -> 0 <= a <= 2 ^ 64 - 1 ->
  reads s (key_namespace h) key now (Some (VNum (NUInt x))) -> 0 <= x <= 2 ^ 64 - 1 ->
  snd (inc_execute (increment_key_by h key (NUInt a)) s now) = Done (NUInt (Z.min (2 ^ 64 - 1) (x + a))) /\
  snd (inc_execute (decrement_key_by h key (NUInt a)) s now) = Done (NUInt (Z.max 0 (x - a))) /\
  snd (inc_execute (Nat.iter (S m) allow_overflow (increment_key_by h key (NUInt a))) s now) = Done (NUInt ((x + a) mod 2 ^ 64)) /\
  snd (inc_execute (Nat.iter (S m) allow_overflow (decrement_key_by h key (NUInt a))) s now) = Done (NUInt ((x - a) mod 2 ^ 64)).
Proof.
  intros s h key now x a m R OA Q OX.
  assert (IT : forall b, Nat.iter (S m) allow_overflow b = allow_overflow b) by (intros b; clear; induction m as [|m IH]; [reflexivity|]; change (allow_overflow (Nat.iter (S m) allow_overflow b) = allow_overflow b); rewrite IH; reflexivity).
  rewrite !IT.
  assert (G : forall b, i_ns b = key_namespace h -> i_key b = key -> i_amount b = NUInt a ->
    snd (inc_execute b s now) = Done (spec_num (negb (i_increment b)) (NUInt x) (NUInt a) (i_saturating b))).
  { intros b E1 E2 E3. pose proof (C77_increment b s now (Some (VNum (NUInt x))) R) as T. rewrite E1, E2, E3 in T. specialize (T OA Q). cbn [spec_num is_nan] in T. apply T. }
  rewrite !G by reflexivity.
  cbn [spec_num increment_key_by decrement_key_by allow_overflow i_increment i_saturating i_amount i_ns i_key negb to_int fit]. unfold fit, clamp, wrap.
  replace (2 ^ 64 - 1 - 0 + 1) with (2 ^ 64) by lia.
  assert (TI : forall sat, match sat with true => Z.max 0 (Z.min (2 ^ 64 - 1) x) | false => 0 + (x - 0) mod 2 ^ 64 end = x).
  { intros [|]; [lia|]. rewrite Z.sub_0_r. rewrite Z.mod_small by lia. lia. }
  pose proof (TI true) as T1. pose proof (TI false) as T2. cbv beta iota in T1, T2. rewrite ?T1, ?T2. rewrite !Z.sub_0_r, !Z.add_0_l.
  repeat match goal with |- _ /\ _ => split end; do 2 f_equal; lia.
Qed.

(* ================= namespaces inside namespaces ================= *)
Definition nest (names : list bytes) : handle := fold_left with_key_namespace names Store.
Fixpoint joined (l : list bytes) : bytes := match l with [] => [] | [x] => x | x :: r => x ++ 0%N :: joined r end.
Lemma joined_snoc l x : l <> [] -> joined (l ++ [x]) = joined l ++ 0%N :: x.
Proof.
  induction l as [|y r IH]; [congruence|]. intros _. destruct r as [|z r]; [reflexivity|]. cbn [app joined] in *. rewrite IH by discriminate. rewrite <- app_assoc. reflexivity.
Qed.
Lemma nest_from names : forall pre, pre <> [] -> fold_left with_key_namespace names (Namespaced (joined pre)) = Namespaced (joined (pre ++ names)).
Proof.
  induction names as [|n r IH]; intros pre P; [rewrite app_nil_r; reflexivity|]. cbn [fold_left with_key_namespace]. rewrite <- joined_snoc by exact P.
  rewrite IH by (destruct pre; discriminate). rewrite <- app_assoc. reflexivity.
Qed.
Lemma nest_key names key : names <> [] -> full_key (key_namespace (nest names)) key = joined (names ++ [key]).
Proof.
  destruct names as [|n r]; [congruence|]. intros _. unfold nest. cbn [fold_left with_key_namespace]. change n with (joined [n]) at 1. rewrite nest_from by discriminate.
  cbn [key_namespace full_key]. rewrite joined_snoc by discriminate. reflexivity.
Qed.
Lemma split_at_nul a b x y : ~ In 0%N a -> ~ In 0%N b -> a ++ 0%N :: x = b ++ 0%N :: y -> a = b /\ x = y.
Proof.
  revert b. induction a as [|c a IH]; intros [|d b] NA NB H; cbn in H.
  - injection H as ->. auto.
  - injection H as <- _. exfalso. apply NB. left. reflexivity.
  - injection H as -> _. exfalso. apply NA. left. reflexivity.
  - injection H as -> H. destruct (IH b) as [-> ->]; auto; intros I; [apply NA|apply NB]; right; exact I.
Qed.
Lemma joined_inj l : forall l', l <> [] -> l' <> [] -> Forall (fun x => ~ In 0%N x) l -> Forall (fun x => ~ In 0%N x) l' -> joined l = joined l' -> l = l'.
Proof.
  induction l as [|x r IH]; intros l' N1 N2 F F' E; [congruence|]. destruct l' as [|y r']; [congruence|].
  inversion F as [|? ? Fx Fr]; subst. inversion F' as [|? ? Fy Fr']; subst.
  destruct r as [|x2 r], r' as [|y2 r']; cbn [joined] in E.
  - congruence.
  - exfalso. apply Fx. rewrite E. apply in_app_iff. right. left. reflexivity.
  - exfalso. apply Fy. rewrite <- E. apply in_app_iff. right. left. reflexivity.
  - apply split_at_nul in E; try assumption. destruct E as (-> & E). f_equal. apply IH; try discriminate; assumption.
Qed.
Definition plain (names : list bytes) (key : bytes) : Prop := Forall (fun n => n <> [] /\ ~ In 0%N n) names /\ ~ In 0%N key.
Lemma nest_inj names key names' key' : plain names key -> plain names' key' ->
  full_key (key_namespace (nest names)) key = full_key (key_namespace (nest names')) key' -> names = names' /\ key = key'.
Proof.
  intros (A & K) (A' & K') E.
  assert (F : forall ns k, Forall (fun n => n <> [] /\ ~ In 0%N n) ns -> ~ In 0%N k -> Forall (fun n : bytes => ~ In 0%N n) (ns ++ [k])).
  { intros ns k X Y. apply Forall_app. split; [|repeat constructor; exact Y]. eapply Forall_impl; [|exact X]. intros a Z. apply Z. }
  destruct names as [|n r], names' as [|n' r'].
  - cbn in E. injection E as E. auto.
  - rewrite (nest_key (n' :: r')) in E by discriminate. inversion A' as [|? ? (Z1 & Z2) _]; subst. exfalso.
    assert (X : [[]; key] = (n' :: r') ++ [key']). { apply joined_inj; try discriminate; [repeat constructor; [intros []|exact K]|apply F; assumption|exact E]. }
    injection X as X _. congruence.
  - rewrite (nest_key (n :: r)) in E by discriminate. inversion A as [|? ? (Z1 & Z2) _]; subst. exfalso.
    assert (X : (n :: r) ++ [key] = [[]; key']). { apply joined_inj; try discriminate; [apply F; assumption|repeat constructor; [intros []|exact K']|exact E]. }
    injection X as X _. congruence.
  - rewrite !nest_key in E by discriminate. apply joined_inj in E; [|discriminate|discriminate|apply F; assumption|apply F; assumption]. apply app_inj_tail in E. exact E.
Qed.
(* keys under different paths of namespaces never touch each other, if neither the
   names nor the keys contain a NUL and no name is empty *)
Theorem C77_nested : forall s names key names' key' c now before, reachable_kv s -> cmd_ok c -> plain names key -> plain names' key' ->
  (names, key) <> (names', key') -> reads s (key_namespace (nest names)) key now before ->
  exists r s', perform s (key_namespace (nest names')) key' c now = Some (r, s') /\ reads s' (key_namespace (nest names)) key now before.
Proof.
  intros s names key names' key' c now before R CO P P' N0 B. apply (reads_spec s _ _ now before R) in B.
  destruct (reach_perform s (key_namespace (nest names')) key' c now R CO) as (s' & E & R' & A). eexists _, s'. split; [exact E|]. apply reads_spec; [exact R'|].
  rewrite B. f_equal. symmetry. unfold purge at 1. rewrite A. unfold put.
  destruct (bytes_eqb (full_key (key_namespace (nest names)) key) (full_key (key_namespace (nest names')) key')) eqn:K.
  - apply bytes_eqb_spec in K. destruct (nest_inj _ _ _ _ P P' K) as (-> & ->). congruence.
  - change (purge now (purge now (abs s)) (full_key (key_namespace (nest names)) key) = purge now (abs s) (full_key (key_namespace (nest names)) key)). apply purge_idem.
Qed.
(* FINDING: otherwise they do: key b<NUL>k of a is key k of a/b, and an empty name is no namespace at all *)
Theorem C77_nested_refuted : forall a b k,
  full_key (key_namespace (nest [a])) (b ++ 0%N :: k) = full_key (key_namespace (nest [a; b])) k /\
  full_key (key_namespace (nest [[]])) k = full_key (key_namespace (nest [])) k.
Proof. intros a b k. split; [|reflexivity]. cbn. rewrite <- app_assoc. reflexivity. Qed.

(* ================= a concrete case ================= *)
Lemma ex_opened p now : reachable_kv (kv_open p now []).
Proof.
  exists p, now, now, [], [], (kv_open p now []), []. split; [split; [split; [exact I|discriminate]|discriminate]|]. repeat split; constructor.
Qed.
Definition json : serde N := Serde (fun n => Some [n; n]) (fun b => match b with [x; y] => if (x =? y)%N then Some x else None | _ => None end).
Definition ex_h : handle := nest [[97%N]; [98%N]].
Definition ex0 : kst := kv_open PImmediate (T 1) [].
Definition ex1 := execute json (only_if_vacant (set_key ex_h [1%N] 7%N)) ex0 (T 2).
Definition ex2 := inc_execute (increment_key_by Store [1%N] (NUInt 5)) (fst ex1) (T 3).
Example C77_ex : key_namespace ex_h = Some [97; 0; 98]%N /\ reachable_kv ex0 /\ reads ex0 (key_namespace ex_h) [1%N] (T 2) None /\
  snd ex1 = Done Inserted /\ snd ex2 = Done (NUInt 5) /\
  snd (get_into json (get_key ex_h [1%N]) (fst ex2) (T 9)) = Done (Some 7%N) /\
  snd (into_u64 (get_key Store [1%N]) (fst ex2) (T 9)) = Done (Some 5) /\
  snd (into_u64 (get_key ex_h [1%N]) (fst ex2) (T 9)) = Fail ALossy /\
  snd (returning_previous json (only_if_vacant (set_key ex_h [1%N] 8%N)) (fst ex2) (T 9)) = Done None /\
  snd (returning_previous json (set_key ex_h [1%N] 8%N) (fst ex2) (T 9)) = Done (Some (VBytes [7; 7]%N)) /\
  snd (delete_key ex_h [1%N] (fst ex2) (T 9)) = Done Deleted /\ plain [[97%N]; [98%N]] [1%N].
Proof.
  split; [reflexivity|]. split; [apply ex_opened|]. do 9 (split; [vm_compute; reflexivity|]).
  split; [repeat constructor; cbn; try discriminate; intros [X|[]]; discriminate X|cbn; intros [X|[]]; discriminate X].
Qed.
Example C77_ex_builders : exists b, fold_left set_call [IfExists; In_ 100 5; Keep; At 3000000007; IfVacant] (Done (set_new ex_h [1%N] (PSer 7%N))) = Done b /\
  b_exp b = Some (Ts 3 7) /\ b_keep b = true /\ b_check b = Some OnlyIfVacant /\
  snd (inc_execute (allow_overflow (decrement_key_by Store [1%N] (NUInt 6))) (fst ex2) (T 4)) = Done (NUInt (2 ^ 64 - 1)).
Proof. eexists. split; [vm_compute; reflexivity|]. repeat split; vm_compute; reflexivity. Qed.
Example C77_ex_floats : exactly (NFloat (z_as_f64 (- 12345))) (-12345) /\
  snd (into_i64 (get_key Store [1%N]) (fst (execute json (set_new Store [1%N] (PNum (NFloat (z_as_f64 (- 12345))))) ex0 (T 2))) (T 3)) = Done (Some (-12345)) /\
  snd (into_u64 (get_key Store [1%N]) (fst (execute json (set_new Store [1%N] (PNum (NFloat (z_as_f64 (- 12345))))) ex0 (T 2))) (T 3)) = Fail ALossy.
Proof. repeat split; vm_compute; reflexivity. Qed.

(* reading a value at a type it does not have is an error that says so *)
Theorem C77_wrong_type : forall V (C : serde V) s ns key now v sat, reachable_kv s -> reads s ns key now (Some v) ->
  (forall x, v = VNum x -> snd (get_into C (GetB ns key false) s now) = Fail ANotSerialized) /\
  (forall b, v = VBytes b -> (from_slice C b = None -> snd (get_into C (GetB ns key false) s now) = Fail ADeserialize) /\
     snd (into_u64 (GetB ns key false) s now) = Fail ALossy /\ snd (into_i64 (GetB ns key false) s now) = Fail ALossy /\ snd (into_f64 (GetB ns key false) s now) = Fail ALossy /\
     snd (into_u64_lossy (GetB ns key false) sat s now) = Fail ANotNumeric /\ snd (into_i64_lossy (GetB ns key false) sat s now) = Fail ANotNumeric /\
     snd (into_f64_lossy (GetB ns key false) s now) = Fail ANotNumeric).
Proof.
  intros V C s ns key now v sat R Q. unfold get_into, into_u64, into_i64, into_f64, into_u64_lossy, into_i64_lossy, into_f64_lossy, map_result. cbn [snd]. rewrite (query_reads _ _ _ _ _ Q).
  split; [intros x ->; reflexivity|]. intros b ->. split; [intros X; cbn [decode_opt deserialize]; rewrite X; reflexivity|]. repeat split; reflexivity.
Qed.

Print Assumptions C77_set.
Print Assumptions C77_wrong_type.
Print Assumptions C77_serialized.
Print Assumptions C77_bytes.
Print Assumptions C77_number.
Print Assumptions C77_take.
Print Assumptions C77_delete.
Print Assumptions C77_increment.
Print Assumptions C77_counter.
Print Assumptions C77_into_i64.
Print Assumptions C77_into_i64_refuted.
Print Assumptions C77_into_i64_saturates_refuted.
Print Assumptions C77_into_u64.
Print Assumptions C77_into_u64_refuted.
Print Assumptions C77_into_f64.
Print Assumptions C77_lossy.
Print Assumptions C77_no_panic.
Print Assumptions C77_expire_at.
Print Assumptions C77_expire_refuted.
Print Assumptions C77_nested.
Print Assumptions C77_nested_refuted.
Print Assumptions C77_builders.
Print Assumptions C77_builders_ok.
Print Assumptions C77_typed_reads.
Print Assumptions C77_previous_as.
Print Assumptions C77_arith.
