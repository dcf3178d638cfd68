(* C35, C36, C37, C38 and C41: the key-value store as a map. *)
From Coq Require Import ZifyBool.
From Verif Require Import Kv KvSpec KvProofs KvSim.
Local Open Scope Z_scope.

(* stored data written by earlier runs of the program, before [launched] *)
Definition stored_before (launched : ts) (d : tree entry) : Prop :=
  disk_ok d /\ forall k e, t_get k d = Some e -> ts_ltb (e_upd e) launched = true.

(* C35. Whatever was stored, whatever the persistence rules and however the
   operations are interleaved with the background worker, the writer thread
   (writing, failing, finishing) and shutdown: nothing panics and the results
   are those of the plain map. *)
Theorem C35_map p now launched d es :
  stored_before launched d -> Forall no_loader es -> Forall event_ok es ->
  exists s0 s', opened p now launched d = Some s0 /\
    run s0 es = Some (fst (spec_run (disk_map d) es), s').
Proof.
  intros [D B] NL OK. destruct (opened_rel p now launched d D B) as (s0 & E & R).
  destruct (run_sim s0 _ es R NL OK) as (rs & s' & Q & -> & _). exists s0, s'. auto.
Qed.
(* a new database needs no loader *)
Theorem C35_fresh p now es : Forall no_loader es -> Forall event_ok es ->
  exists s', run (kv_open p now []) es = Some (fst (spec_run (fun _ => None) es), s').
Proof.
  intros NL OK. destruct (C35_map p now now [] es) as (s0 & s' & E & R); try assumption.
  - split; [split; [exact wf_nil|discriminate]|discriminate].
  - exists s'. change (opened p now now []) with (Some (kv_open p now [])) in E. injection E as <-. exact R.
Qed.
(* the schedule is irrelevant: removing all persistence events does not change any result *)
Definition visible (e : event) : bool := match e with EOp _ _ _ _ | ETick _ => true | _ => false end.
Lemma spec_run_visible m es : spec_run m es = spec_run m (filter visible es).
Proof.
  revert m; induction es as [|e r IH]; intros m; [reflexivity|].
  destruct e as [ns key c now|now| | | |now|l|]; cbn [filter visible spec_run spec_event]; rewrite ?IH; try reflexivity;
    try (destruct (spec_run m (filter visible r)); reflexivity).
  destruct (spec_cmd c (purge now m (full_key ns key))) as [x y]. rewrite IH. reflexivity.
Qed.
Theorem C35_schedule_irrelevant p p' now launched d es es' :
  stored_before launched d -> Forall no_loader es -> Forall event_ok es -> Forall no_loader es' -> Forall event_ok es' ->
  filter visible es = filter visible es' ->
  exists s0 s1 rs s s', opened p now launched d = Some s0 /\ opened p' now launched d = Some s1 /\
    run s0 es = Some (rs, s) /\ run s1 es' = Some (rs, s').
Proof.
  intros D N1 O1 N2 O2 H. destruct (C35_map p now launched d es D N1 O1) as (s0 & s & E & R).
  destruct (C35_map p' now launched d es' D N2 O2) as (s1 & s' & E' & R').
  exists s0, s1, (fst (spec_run (disk_map d) es)), s, s'. repeat split; try assumption.
  rewrite R', (spec_run_visible _ es), (spec_run_visible _ es'), H. reflexivity.
Qed.
Definition T (n : N) : ts := Ts n 0.
Definition setv (v : value) (x : option ts) : command := CSet (SetCmd v x false None false).
Example C35_ex :
  let es := [EOp None [1%N] (setv (VBytes [7%N]) None) (T 5); EWrite; EOp (Some [9%N]) [1%N] (setv (VBytes [8%N]) None) (T 6);
             EOp None [1%N] CDelete (T 7); EFinish; ETick (T 8); EOp None [1%N] (CGet false) (T 9); EOp (Some [9%N]) [1%N] (CGet false) (T 9)] in
  Forall no_loader es /\ Forall event_ok es /\
  option_map fst (run (kv_open PImmediate (T 1) []) es) =
    Some [KOk (OStatus Inserted); KOk (OStatus Inserted); KOk (OStatus Deleted); KOk (OValue None); KOk (OValue (Some (VBytes [8%N])))].
Proof. split; [repeat constructor|split; [repeat constructor|reflexivity]]. Qed.

(* ---------- states reached by any history ---------- *)
Definition reachable_kv (s : kst) : Prop :=
  exists p now launched d es s0 rs, stored_before launched d /\ Forall no_loader es /\ Forall event_ok es /\
    opened p now launched d = Some s0 /\ run s0 es = Some (rs, s).
Lemma reachable_rel s : reachable_kv s -> rel s (abs s).
Proof.
  intros (p & now & l & d & es & s0 & rs & [D B] & NL & OK & E & R).
  destruct (opened_rel p now l d D B) as (s0' & E' & R0). rewrite E in E'; injection E' as <-.
  destruct (run_sim s0 _ es R0 NL OK) as (rs' & s' & Q & _ & R1). rewrite R in Q; injection Q as _ <-.
  pose proof R1 as (_ & _ & A & _). apply (rel_ext _ (snd (spec_run (disk_map d) es))); [intros k; symmetry; apply A|exact R1].
Qed.
Lemma reachable_results s es : reachable_kv s -> Forall no_loader es -> Forall event_ok es ->
  exists s', run s es = Some (fst (spec_run (abs s) es), s').
Proof. intros R NL OK. destruct (run_sim s _ es (reachable_rel s R) NL OK) as (rs & s' & E & -> & _). exists s'. exact E. Qed.
(* the results of operations run one after the other in a state *)
Definition results (s : kst) (es : list event) : option (list kresult) := option_map fst (run s es).
Lemma results_spec s es : reachable_kv s -> Forall no_loader es -> Forall event_ok es ->
  results s es = Some (fst (spec_run (abs s) es)).
Proof. intros R NL OK. destruct (reachable_results s es R NL OK) as (s' & E). unfold results. rewrite E. reflexivity. Qed.

Lemma purge_idem now m k : purge now (purge now m) k = purge now m k.
Proof. unfold purge. destruct (m k) as [c|]; [|reflexivity]. destruct (expired now c) eqn:E; [reflexivity|]. rewrite E. reflexivity. Qed.

(* reading before, the command, reading after, all at one time *)
Definition probe ns key c now := [EOp ns key (CGet false) now; EOp ns key c now; EOp ns key (CGet false) now].
Lemma probe_spec s ns key c now : reachable_kv s -> cmd_ok c ->
  let cur := purge now (abs s) (full_key ns key) in
  results s (probe ns key c now) =
    Some [KOk (OValue (option_map fst cur)); fst (spec_cmd c cur);
          KOk (OValue (option_map fst (match snd (spec_cmd c cur) with
                                       | Some x => if expired now x then None else Some x | None => None end)))].
Proof.
  intros R C cur. rewrite results_spec; [|exact R|repeat constructor|repeat constructor; exact C].
  unfold probe. cbn [spec_run spec_event spec_cmd]. set (k := full_key ns key) in *.
  set (m1 := purge now (abs s)). change (m1 k) with cur.
  assert (P1 : purge now (put k cur m1) k = cur).
  { unfold purge at 1, put. rewrite bytes_eqb_refl. subst cur m1. unfold purge. destruct (abs s k) as [c0|]; [|reflexivity].
    destruct (expired now c0) eqn:E; [reflexivity|]. rewrite E. reflexivity. }
  rewrite P1. destruct (spec_cmd c cur) as [r e]. cbn [fst snd].
  unfold purge at 1, put at 1. rewrite bytes_eqb_refl. destruct e; reflexivity.
Qed.

(* the value a get returns *)
Definition getv (s : kst) ns key now : option (option value) :=
  match results s [EOp ns key (CGet false) now] with Some [KOk (OValue v)] => Some v | _ => None end.

Definition holds (check : option kcheck) (before : option value) : Prop :=
  match check, before with
  | Some OnlyIfPresent, None => False
  | Some OnlyIfVacant, Some _ => False
  | _, _ => True
  end.
(* C36. In every reachable state: [before] and [after] are what get returns
   around the set, [r] is what set returns. *)
Theorem C36_set s ns key sc now : reachable_kv s -> val_ok (s_val sc) ->
  exists before r after,
    results s (probe ns key (CSet sc) now) = Some [KOk (OValue before); r; KOk (OValue after)] /\
    (is_nan (s_val sc) = true -> r = KErr ENotANumber /\ after = before) /\
    (is_nan (s_val sc) = false -> ~ holds (s_check sc) before -> r = KOk (OStatus NotChanged) /\ after = before) /\
    (is_nan (s_val sc) = false -> holds (s_check sc) before ->
       r = KOk (if s_ret sc then OValue before
                else OStatus (match before with Some _ => Updated | None => Inserted end)) /\
       ((forall t, s_exp sc = Some t -> ts_ltb now t = true) -> after = Some (s_val sc))).
Proof.
  intros R V. pose proof (probe_spec s ns key (CSet sc) now R V) as P. cbn zeta in P.
  set (cur := purge now (abs s) (full_key ns key)) in *.
  assert (NE : match cur with Some c => expired now c = false | None => True end).
  { subst cur. unfold purge. destruct (abs s (full_key ns key)) as [c|]; [|exact I]. destruct (expired now c) eqn:E; [exact I|exact E]. }
  eexists _, _, _. split; [exact P|]. clear P.
  assert (SAME : option_map fst match cur with Some x => if expired now x then None else Some x | None => None end = option_map fst cur).
  { destruct cur as [c|]; [|reflexivity]. rewrite NE. reflexivity. }
  cbn [spec_cmd]. split; [|split].
  - intros ->. cbn [fst snd]. split; [reflexivity|exact SAME].
  - intros ->. intros H.
    assert (Q : match s_check sc, cur with Some OnlyIfPresent, None => true | Some OnlyIfVacant, Some _ => true | _, _ => false end = true).
    { unfold holds in H. destruct (s_check sc) as [[]|], cur; cbn in *; try reflexivity; exfalso; apply H; exact I. }
    rewrite Q. cbn [fst snd]. split; [reflexivity|exact SAME].
  - intros ->. intros H.
    assert (Q : match s_check sc, cur with Some OnlyIfPresent, None => true | Some OnlyIfVacant, Some _ => true | _, _ => false end = false).
    { unfold holds in H. destruct (s_check sc) as [[]|], cur; cbn in *; try reflexivity; destruct H. }
    rewrite Q. cbn [fst snd]. split.
    + destruct (s_ret sc); [reflexivity|]. destruct cur; reflexivity.
    + intros X. set (x := match s_keep sc with true => _ | false => _ end).
      assert (Z : expired now (s_val sc, x) = false).
      { unfold expired. cbn [snd]. assert (D : x = s_exp sc \/ exists v, cur = Some (v, x)).
        { subst x. destruct (s_keep sc); [|auto]. destruct cur as [[v y]|]; [|auto]. right. exists v. reflexivity. }
        destruct D as [D|[v D]].
        - rewrite D. destruct (s_exp sc) as [t|]; [|reflexivity]. specialize (X t eq_refl). unfold ts_ltb in X. apply negb_true_iff in X. exact X.
        - rewrite D in NE. exact NE. }
      rewrite Z. reflexivity.
Qed.
Example C36_ex : exists s, reachable_kv s /\
  results s (probe None [1%N] (CSet (SetCmd (VBytes [4%N]) None false (Some OnlyIfVacant) true)) (T 9)) =
    Some [KOk (OValue (Some (VBytes [7%N]))); KOk (OStatus NotChanged); KOk (OValue (Some (VBytes [7%N])))].
Proof.
  eexists. split.
  - exists PImmediate, (T 1), (T 1), [], [EOp None [1%N] (setv (VBytes [7%N]) None) (T 5)].
    do 2 eexists. split; [split; [split; [exact wf_nil|discriminate]|discriminate]|].
    split; [repeat constructor|]. split; [repeat constructor|]. split; reflexivity.
  - reflexivity.
Qed.

(* C37. Arithmetic: in the type of the amount, an absent key counts as 0u64. *)
Definition arith (sub : bool) (a : numeric) (sat : bool) : command := if sub then CDecr a sat else CIncr a sat.
Theorem C37_arith s ns key sub a sat now : reachable_kv s -> num_ok a ->
  exists before r after,
    results s (probe ns key (arith sub a sat) now) = Some [KOk (OValue before); r; KOk (OValue after)] /\
    (forall b, before = Some (VBytes b) -> r = KErr ENotNumeric /\ after = before) /\
    (forall x y, match before with Some v => v = VNum x | None => x = NUInt 0 end -> y = spec_num sub x a sat ->
       (is_nan (VNum y) = true -> r = KErr ENotANumber /\ after = before) /\
       (is_nan (VNum y) = false -> r = KOk (OValue (Some (VNum y))) /\ after = Some (VNum y))).
Proof.
  intros R V. assert (C : cmd_ok (arith sub a sat)) by (destruct sub; exact V).
  pose proof (probe_spec s ns key (arith sub a sat) now R C) as P. cbn zeta in P.
  set (cur := purge now (abs s) (full_key ns key)) in *.
  assert (NE : match cur with Some c => expired now c = false | None => True end).
  { subst cur. unfold purge. destruct (abs s (full_key ns key)) as [c|]; [|exact I]. destruct (expired now c) eqn:E; [exact I|exact E]. }
  assert (SP : spec_cmd (arith sub a sat) cur = spec_arith sub a sat cur) by (destruct sub; reflexivity).
  rewrite SP in P. eexists _, _, _. split; [exact P|]. clear P SP. unfold spec_arith. split.
  - intros b H. destruct cur as [[v x]|]; [|discriminate]. cbn in *. injection H as ->. cbn [fst snd]. rewrite NE. split; reflexivity.
  - intros x y H ->. destruct cur as [[v z]|]; cbn [option_map fst snd] in *; subst; cbn [fst snd];
      destruct (is_nan (VNum (spec_num sub x a sat))) || destruct (is_nan (VNum (spec_num sub (NUInt 0) a sat))); cbn [fst snd option_map];
      (split; intros Q; [try discriminate Q|try discriminate Q]).
    + rewrite NE. auto.
    + split; [reflexivity|]. change (expired now (VNum (spec_num sub x a sat), z)) with (expired now (VNum x, z)). rewrite NE. reflexivity.
    + auto.
    + auto.
Qed.
(* the specified arithmetic, spelled out for integers of one type *)
Theorem C37_signed x a (sub : bool) : - 2 ^ 63 <= x <= 2 ^ 63 - 1 ->
  let exact := if sub then x - a else x + a in
  spec_num sub (NInt x) (NInt a) true = NInt (Z.max (- 2 ^ 63) (Z.min (2 ^ 63 - 1) exact)) /\
  exists y, spec_num sub (NInt x) (NInt a) false = NInt y /\ - 2 ^ 63 <= y <= 2 ^ 63 - 1 /\ (y - exact) mod 2 ^ 64 = 0.
Proof.
  intros H exact. unfold spec_num. cbn [to_int]. rewrite !(fit_id _ _ _ x H). split; [reflexivity|].
  eexists. split; [reflexivity|]. split; [apply fit_range; lia|]. unfold fit, wrap. subst exact.
  set (e := if sub then x - a else x + a). replace (2 ^ 63 - 1 - - 2 ^ 63 + 1) with (2 ^ 64) by reflexivity.
  pose proof (Z.div_mod (e - - 2 ^ 63) (2 ^ 64) ltac:(lia)) as D.
  replace (- 2 ^ 63 + (e - - 2 ^ 63) mod 2 ^ 64 - e) with ((- ((e - - 2 ^ 63) / 2 ^ 64)) * 2 ^ 64) by lia.
  apply Z.mod_mul. lia.
Qed.
Theorem C37_unsigned x a (sub : bool) : 0 <= x <= 2 ^ 64 - 1 ->
  let exact := if sub then x - a else x + a in
  spec_num sub (NUInt x) (NUInt a) true = NUInt (Z.max 0 (Z.min (2 ^ 64 - 1) exact)) /\
  exists y, spec_num sub (NUInt x) (NUInt a) false = NUInt y /\ 0 <= y <= 2 ^ 64 - 1 /\ (y - exact) mod 2 ^ 64 = 0.
Proof.
  intros H exact. unfold spec_num. cbn [to_int]. rewrite !(fit_id _ _ _ x H). split; [reflexivity|].
  eexists. split; [reflexivity|]. split; [apply fit_range; lia|]. unfold fit, wrap. subst exact.
  set (e := if sub then x - a else x + a). replace (2 ^ 64 - 1 - 0 + 1) with (2 ^ 64) by reflexivity.
  pose proof (Z.div_mod (e - 0) (2 ^ 64) ltac:(lia)) as D.
  replace (0 + (e - 0) mod 2 ^ 64 - e) with ((- ((e - 0) / 2 ^ 64)) * 2 ^ 64) by lia.
  apply Z.mod_mul. lia.
Qed.
Example C37_ex : exists s, reachable_kv s /\
  results s (probe None [1%N] (CIncr (NInt 5) false) (T 9)) =
    Some [KOk (OValue (Some (VNum (NUInt (2 ^ 64 - 1))))); KOk (OValue (Some (VNum (NInt 4)))); KOk (OValue (Some (VNum (NInt 4))))].
Proof.
  eexists. split.
  - exists PImmediate, (T 1), (T 1), [], [EOp None [1%N] (setv (VNum (NUInt (2 ^ 64 - 1))) None) (T 5)].
    do 2 eexists. split; [split; [split; [exact wf_nil|discriminate]|discriminate]|].
    split; [repeat constructor|]. split; [constructor; [cbn; lia|constructor]|]. split; reflexivity.
  - reflexivity.
Qed.
(* Unsigned arithmetic on a stored float, and -1.5 + 1u64: truncation towards zero *)
Example C37_float_ex :
  increment (NFloat (SFopp (binary_normalize 53 1024 3 (-1) false))) (NInt 1) true = NInt 0 /\
  increment (NInt 3) (NFloat (binary_normalize 53 1024 1 (-1) false)) true = NFloat (binary_normalize 53 1024 7 (-1) false).
Proof. split; reflexivity. Qed.

(* ---------- expirations ---------- *)
Definition event_time (e : event) : option ts :=
  match e with EOp _ _ _ now => Some now | ETick now => Some now | _ => None end.
(* the event is not an operation on this key *)
Definition elsewhere (k : bytes) (e : event) : Prop := match e with EOp ns key _ _ => full_key ns key <> k | _ => True end.
Definition passes (c : cell) (e : event) : bool := match event_time e with Some t => expired t c | None => false end.

Lemma spec_run_elsewhere m es k : Forall (elsewhere k) es ->
  snd (spec_run m es) k = match m k with Some c => if existsb (passes c) es then None else Some c | None => None end.
Proof.
  revert m; induction es as [|e r IH]; intros m F; cbn [spec_run existsb].
  - cbn. destruct (m k); reflexivity.
  - inversion F as [|? ? F1 F2]; subst.
    assert (H : snd (spec_event m e) k = match m k with Some c => if passes c e then None else Some c | None => None end).
    { destruct e as [ns key c now|now| | | |now|l|]; unfold passes; cbn [spec_event event_time snd]; try (destruct (m k); reflexivity); [|reflexivity].
      destruct (spec_cmd c (purge now m (full_key ns key))) as [r0 x]. cbn [snd]. unfold put.
      cbn in F1. destruct (bytes_eqb k (full_key ns key)) eqn:E; [apply bytes_eqb_spec in E; congruence|]. reflexivity. }
    destruct (spec_event m e) as [o m1]. cbn [snd] in H. specialize (IH m1 F2). destruct (spec_run m1 r) as [rs m2]. cbn [snd] in *.
    rewrite IH, H. destruct (m k) as [c|]; [|reflexivity]. destruct (passes c e); cbn [orb]; [reflexivity|]. reflexivity.
Qed.
Lemma spec_run_app m a b : spec_run m (a ++ b) =
  let '(r1, m1) := spec_run m a in let '(r2, m2) := spec_run m1 b in (r1 ++ r2, m2).
Proof.
  revert m; induction a as [|e r IH]; intros m; cbn [app spec_run].
  - destruct (spec_run m b); reflexivity.
  - destruct (spec_event m e) as [o m1]. rewrite IH. destruct (spec_run m1 r) as [r1 m2]. destruct (spec_run m2 b) as [r2 m3].
    destruct o; reflexivity.
Qed.
Lemma last_app_one {A} (l : list A) x d : last (l ++ [x]) d = x.
Proof. apply last_last. Qed.

(* the result of the last operation *)
Definition last_result (s : kst) (es : list event) : option kresult :=
  match results s es with Some rs => last (map Some rs) None | None => None end.
Lemma last_get s es ns key now : reachable_kv s -> Forall no_loader es -> Forall event_ok es ->
  last_result s (es ++ [EOp ns key (CGet false) now]) =
    Some (KOk (OValue (option_map fst (purge now (snd (spec_run (abs s) es)) (full_key ns key))))).
Proof.
  intros R NL OK. unfold last_result. rewrite results_spec; [|exact R| |].
  - rewrite spec_run_app. destruct (spec_run (abs s) es) as [r1 m1]. cbn [spec_run spec_event spec_cmd fst snd].
    rewrite map_app. apply last_app_one.
  - apply Forall_app; split; [exact NL|repeat constructor].
  - apply Forall_app; split; [exact OK|repeat constructor].
Qed.

(* C38. After a successful unconditional set of a key at [now] with expiration
   [x], and any further history without operations on this key: a get finds the
   value exactly if no operation or background round so far, nor the get itself,
   ran at or after the expiration. *)
Theorem C38_expiration s ns key v x now es t : reachable_kv s -> val_ok v -> is_nan v = false ->
  Forall no_loader es -> Forall event_ok es -> Forall (elsewhere (full_key ns key)) es ->
  last_result s ([EOp ns key (setv v x) now] ++ es ++ [EOp ns key (CGet false) t]) =
    Some (KOk (OValue (if existsb (passes (v, x)) es || expired t (v, x) then None else Some v))).
Proof.
  intros R V NN NL OK EL. rewrite app_assoc.
  rewrite last_get; [|exact R|apply Forall_app; split; [repeat constructor|exact NL]|apply Forall_app; split; [repeat constructor; exact V|exact OK]].
  rewrite spec_run_app. cbn [spec_run spec_event spec_cmd setv s_val s_check s_ret s_keep s_exp]. rewrite NN. cbn [fst snd].
  set (m1 := put _ _ _).
  pose proof (spec_run_elsewhere m1 es (full_key ns key) EL) as H.
  destruct (spec_run m1 es) as [rs m2]. cbn [snd] in *. unfold purge. rewrite H.
  subst m1. unfold put. rewrite bytes_eqb_refl. destruct (existsb (passes (v, x)) es); cbn [orb]; [reflexivity|].
  destruct (expired t (v, x)); reflexivity.
Qed.
(* a key that existed before the history: only time can remove it, and keys with
   no expiration are never removed *)
Theorem C38_others s ns key now es t c : reachable_kv s -> Forall no_loader es -> Forall event_ok es ->
  Forall (elsewhere (full_key ns key)) es ->
  getv s ns key now = Some (Some c) ->
  exists x, last_result s ([EOp ns key (CGet false) now] ++ es ++ [EOp ns key (CGet false) t]) =
    Some (KOk (OValue (if existsb (passes (c, x)) es || expired t (c, x) then None else Some c))).
Proof.
  intros R NL OK EL G. unfold getv in G. rewrite results_spec in G by (first [exact R | repeat constructor]).
  cbn [spec_run spec_event spec_cmd fst] in G. injection G as G.
  destruct (purge now (abs s) (full_key ns key)) as [[v x]|] eqn:P; [|discriminate]. cbn in G. injection G as ->.
  exists x. rewrite app_assoc.
  rewrite last_get; [|exact R|apply Forall_app; split; [repeat constructor|exact NL]|apply Forall_app; split; [repeat constructor|exact OK]].
  rewrite spec_run_app. cbn [spec_run spec_event spec_cmd]. rewrite P. set (m1 := put _ _ _).
  pose proof (spec_run_elsewhere m1 es (full_key ns key) EL) as H.
  destruct (spec_run m1 es) as [rs m2]. cbn [snd] in *. unfold purge. rewrite H.
  subst m1. unfold put. rewrite bytes_eqb_refl. destruct (existsb (passes (c, x)) es); cbn [orb]; [reflexivity|].
  destruct (expired t (c, x)); reflexivity.
Qed.
(* increments, decrements and sets that keep the expiration: the key lives exactly
   as long as it would have without them *)
Definition keeps (c : command) : Prop := match c with CSet sc => s_keep sc = true /\ s_check sc = None | CIncr _ _ | CDecr _ _ => True | _ => False end.
Definition present (r : option kresult) : bool := match r with Some (KOk (OValue (Some _))) => true | _ => false end.
Theorem C38_kept s ns key c now es t : reachable_kv s -> cmd_ok c -> keeps c ->
  Forall no_loader es -> Forall event_ok es -> Forall (elsewhere (full_key ns key)) es ->
  (exists v, getv s ns key now = Some (Some v)) ->
  present (last_result s ([EOp ns key c now] ++ es ++ [EOp ns key (CGet false) t])) =
  present (last_result s ([EOp ns key (CGet false) now] ++ es ++ [EOp ns key (CGet false) t])).
Proof.
  intros R C K NL OK EL [v G]. unfold getv in G. rewrite results_spec in G by (first [exact R | repeat constructor]).
  cbn [spec_run spec_event spec_cmd fst] in G. injection G as G.
  destruct (purge now (abs s) (full_key ns key)) as [[v' x]|] eqn:P; [|discriminate]. cbn in G. injection G as ->.
  rewrite !app_assoc.
  rewrite !last_get; try exact R; try (apply Forall_app; split; [repeat constructor; exact C|assumption]); try (apply Forall_app; split; [repeat constructor|assumption]).
  rewrite !spec_run_app. cbn [spec_run spec_event]. rewrite P. set (k := full_key ns key) in *.
  assert (H : exists v2, snd (spec_cmd c (Some (v, x))) = Some (v2, x)).
  { destruct c as [sc|d| |a sat|a sat]; cbn [keeps] in K; try (destruct K; fail); cbn [spec_cmd].
    - destruct (is_nan (s_val sc)); [eexists; reflexivity|]. destruct K as [-> ->]. eexists; reflexivity.
    - unfold spec_arith. cbn [fst snd]. destruct v; [eexists; reflexivity|]. destruct (is_nan _); eexists; reflexivity.
    - unfold spec_arith. cbn [fst snd]. destruct v; [eexists; reflexivity|]. destruct (is_nan _); eexists; reflexivity. }
  destruct H as [v2 H]. unfold cell in *. destruct (spec_cmd c (Some (v, x))) as [r cl]. cbn [snd] in H. subst cl.
  cbn [spec_cmd].
  pose proof (spec_run_elsewhere (put k (Some (v2, x)) (purge now (abs s))) es k EL) as H1.
  pose proof (spec_run_elsewhere (put k (Some (v, x)) (purge now (abs s))) es k EL) as H2.
  destruct (spec_run (put k (Some (v2, x)) (purge now (abs s))) es) as [r1 m1].
  destruct (spec_run (put k (Some (v, x)) (purge now (abs s))) es) as [r2 m2]. cbn [snd] in *.
  unfold purge. rewrite H1, H2. unfold put. rewrite bytes_eqb_refl.
  change (passes (v2, x)) with (passes (v, x)). destruct (existsb (passes (v, x)) es); [reflexivity|].
  change (expired t (v2, x)) with (expired t (v, x)). destruct (expired t (v, x)); reflexivity.
Qed.
Example C38_ex : let es := [EOp None [2%N] (setv (VBytes [1%N]) None) (T 8); EWrite; EFinish; ETick (T 9)] in
  exists s, reachable_kv s /\ Forall (elsewhere (full_key None [1%N])) es /\
  last_result s ([EOp None [1%N] (setv (VBytes [7%N]) (Some (T 10))) (T 5)] ++ es ++ [EOp None [1%N] (CGet false) (T 10)]) = Some (KOk (OValue None)) /\
  last_result s ([EOp None [1%N] (setv (VBytes [7%N]) (Some (T 10))) (T 5)] ++ es ++ [EOp None [1%N] (CGet false) (T 9)]) = Some (KOk (OValue (Some (VBytes [7%N])))).
Proof.
  exists (kv_open PImmediate (T 1) []). split; [|split; [|split; reflexivity]].
  - exists PImmediate, (T 1), (T 1), [], [], (kv_open PImmediate (T 1) []), [].
    split; [split; [split; [exact wf_nil|discriminate]|discriminate]|]. repeat split; constructor.
  - repeat constructor. cbn. discriminate.
Qed.
(* Before the loader has run, a reopened database still shows keys that expired
   long ago: the claim fails for a database that has just been opened. *)
Theorem C38_not_yet_loaded_refuted : exists p now d k v t,
  disk_ok d /\ option_map e_exp (t_get (full_key None k) d) = Some (Some t) /\ ts_ltb t now = true /\
  results (kv_open p now d) [EOp None k (CGet false) now] = Some [KOk (OValue (Some v))].
Proof.
  exists PImmediate, (T 100), [(full_key None [1%N], Entry (VBytes [7%N]) (Some (T 10)) (T 5))], [1%N], (VBytes [7%N]), (T 10).
  split; [split; [exact I|]|split; [reflexivity|split; reflexivity]].
  intros k e. cbn [t_get]. destruct (bytes_eqb k (full_key None [1%N])); [|discriminate]. intros H. injection H as <-. exact I.
Qed.

(* ---------- namespaces ---------- *)
Definition no_nul (ns : option bytes) : Prop := match ns with Some n => ~ In 0%N n | None => True end.
Definition same_ns (a b : option bytes) : Prop :=
  match a with Some n => n | None => [] end = match b with Some n => n | None => [] end.
Lemma full_key_inj ns key ns' key' : no_nul ns -> no_nul ns' ->
  (full_key ns key = full_key ns' key' <-> same_ns ns ns' /\ key = key').
Proof.
  intros A B. unfold full_key, same_ns. split; [|intros [H ->]; destruct ns, ns'; cbn in *; subst; reflexivity].
  assert (G : forall a b : bytes, ~ In 0%N a -> ~ In 0%N b -> a ++ 0%N :: key = b ++ 0%N :: key' -> a = b /\ key = key').
  { induction a as [|x a IH]; intros [|y b] NA NB H; cbn in H.
    - injection H as ->. auto.
    - injection H as <- _. exfalso. apply NB. left. reflexivity.
    - injection H as -> _. exfalso. apply NA. left. reflexivity.
    - injection H as -> H. destruct (IH b) as [-> ->]; auto; intros I; [apply NA|apply NB]; right; exact I. }
  apply G; [destruct ns; [exact A|intros []]|destruct ns'; [exact B|intros []]].
Qed.
(* C41. For namespaces without NUL bytes: operations on other keys or other
   namespaces, in any number, never change what is read under (ns, key); only
   time may remove it. *)
Theorem C41_separate s ns key now es t : reachable_kv s -> no_nul ns ->
  Forall no_loader es -> Forall event_ok es ->
  Forall (fun e => match e with EOp ns' key' _ _ => no_nul ns' /\ ~ (same_ns ns ns' /\ key = key') | _ => True end) es ->
  exists cur : option cell, getv s ns key now = Some (option_map fst cur) /\
  last_result s ([EOp ns key (CGet false) now] ++ es ++ [EOp ns key (CGet false) t]) =
    Some (KOk (OValue (match cur with
                       | Some c => if existsb (passes c) es || expired t c then None else Some (fst c)
                       | None => None end))).
Proof.
  intros R NN NL OK F. exists (purge now (abs s) (full_key ns key)). split.
  { unfold getv. rewrite results_spec by (first [exact R | repeat constructor]). reflexivity. }
  assert (EL : Forall (elsewhere (full_key ns key)) es).
  { eapply Forall_impl; [|exact F]. intros e H. destruct e; try exact I. destruct H as [N2 H]. cbn. intros E.
    apply H. symmetry in E. apply full_key_inj in E; assumption. }
  rewrite app_assoc.
  rewrite last_get; [|exact R|apply Forall_app; split; [repeat constructor|exact NL]|apply Forall_app; split; [repeat constructor|exact OK]].
  rewrite spec_run_app. cbn [spec_run spec_event spec_cmd]. set (m1 := put _ _ _).
  pose proof (spec_run_elsewhere m1 es (full_key ns key) EL) as H.
  destruct (spec_run m1 es) as [rs m2]. cbn [snd] in *. unfold purge at 1. rewrite H.
  subst m1. unfold put. rewrite bytes_eqb_refl. destruct (purge now (abs s) (full_key ns key)) as [c|]; [|reflexivity].
  destruct (existsb (passes c) es); cbn [orb]; [reflexivity|]. destruct (expired t c); reflexivity.
Qed.
Example C41_ex : exists s, reachable_kv s /\ no_nul (Some [5%N]) /\
  Forall (fun e => match e with EOp ns' key' _ _ => no_nul ns' /\ ~ (same_ns (Some [5%N]) ns' /\ [1%N] = key') | _ => True end)
    [EOp None [1%N] CDelete (T 3); EOp (Some [5%N]) [2%N] CDelete (T 3)].
Proof.
  exists (kv_open PImmediate (T 1) []). split; [|split].
  - exists PImmediate, (T 1), (T 1), [], [], (kv_open PImmediate (T 1) []), [].
    split; [split; [split; [exact wf_nil|discriminate]|discriminate]|]. repeat split; constructor.
  - cbn. intros [H|[]]. discriminate.
  - repeat constructor; cbn; try (intros [H|[]]; discriminate); intros [H1 H2]; discriminate.
Qed.
(* operations on different keys at one time can be done in either order: each answers the same, and
   so does whatever follows *)
Definition not_before (now : ts) (e : event) : Prop := match e with EOp _ _ _ t | ETick t => ts_leb now t = true | _ => True end.
Definition later (now : ts) (m m' : kmap) : Prop := forall t, ts_leb now t = true -> forall k, purge t m k = purge t m' k.
Lemma later_same now m m' : (forall k, m k = m' k) -> later now m m'.
Proof. intros H t _. apply purge_ext, H. Qed.
Lemma later_run now es : forall m m', later now m m' -> Forall (not_before now) es -> fst (spec_run m es) = fst (spec_run m' es).
Proof.
  induction es as [|e r IH]; intros m m' L F; [reflexivity|]. inversion_clear F as [|? ? F1 F2].
  assert (G : forall x y (o : option kresult), later now x y -> fst (let '(rs, m2) := spec_run x r in (match o with Some z => z :: rs | None => rs end, m2)) =
    fst (let '(rs, m2) := spec_run y r in (match o with Some z => z :: rs | None => rs end, m2))).
  { intros x y o X. specialize (IH x y X F2). destruct (spec_run x r), (spec_run y r). cbn [fst] in *. subst. reflexivity. }
  cbn [spec_run]. destruct e; cbn [spec_event not_before] in *; try exact (G _ _ None L).
  - rewrite (L _ F1). destruct (spec_cmd _ _) as [a cl]. refine (G _ _ (Some a) _). apply later_same. intros k. unfold put. destruct (bytes_eqb k _); [reflexivity|apply (L _ F1)].
  - refine (G _ _ None _). apply later_same. apply (L _ F1).
Qed.
Lemma purge_later now t m k : ts_leb now t = true -> purge t (purge now m) k = purge t m k.
Proof.
  intros H. unfold purge. destruct (m k) as [c|]; [|reflexivity]. destruct (expired now c) eqn:E; [|reflexivity].
  assert (expired t c = true) as ->; [|reflexivity]. unfold expired in *. destruct (snd c) as [x|]; [|discriminate]. eapply ts_leb_trans; eassumption.
Qed.
Theorem C41_commute s ns1 k1 c1 ns2 k2 c2 now es r1 r2 rs : reachable_kv s -> no_nul ns1 -> no_nul ns2 -> ~ (same_ns ns1 ns2 /\ k1 = k2) ->
  cmd_ok c1 -> cmd_ok c2 -> Forall no_loader es -> Forall event_ok es -> Forall (not_before now) es ->
  results s (EOp ns1 k1 c1 now :: EOp ns2 k2 c2 now :: es) = Some (r1 :: r2 :: rs) ->
  results s (EOp ns2 k2 c2 now :: EOp ns1 k1 c1 now :: es) = Some (r2 :: r1 :: rs).
Proof.
  intros R N1 N2 NE O1 O2 NL OK NB. rewrite !results_spec by (first [exact R | repeat constructor; assumption]).
  assert (K : full_key ns1 k1 <> full_key ns2 k2) by (intros X; apply full_key_inj in X; auto).
  set (K1 := full_key ns1 k1) in *. set (K2 := full_key ns2 k2) in *. cbn [spec_run spec_event]. fold K1 K2.
  set (m1 := purge now (abs s)).
  assert (B12 : bytes_eqb K1 K2 = false) by (destruct (bytes_eqb K1 K2) eqn:X; [apply bytes_eqb_spec in X; destruct (K X)|reflexivity]).
  assert (B21 : bytes_eqb K2 K1 = false) by (destruct (bytes_eqb K2 K1) eqn:X; [apply bytes_eqb_spec in X; destruct (K (eq_sym X))|reflexivity]).
  assert (ID : forall j x k, bytes_eqb k j = false -> purge now (put j x m1) k = m1 k).
  { intros j x k X. unfold purge at 1. unfold put. rewrite X. exact (purge_idem now (abs s) k). }
  destruct (spec_cmd c1 (m1 K1)) as [a1 x1] eqn:S1, (spec_cmd c2 (m1 K2)) as [a2 x2] eqn:S2.
  rewrite (ID K1 x1 K2 B21), S2, (ID K2 x2 K1 B12), S1.
  set (u := put K2 x2 (purge now (put K1 x1 m1))). set (v := put K1 x1 (purge now (put K2 x2 m1))).
  assert (L : later now u v).
  { intros t T k. set (cut := fun now o => match o with Some c => if expired now c then None else Some c | None => None end).
    change (cut t (if bytes_eqb k K2 then x2 else cut now (if bytes_eqb k K1 then x1 else m1 k)) = cut t (if bytes_eqb k K1 then x1 else cut now (if bytes_eqb k K2 then x2 else m1 k))).
    assert (C : forall o, cut t (cut now o) = cut t o) by (intros o; exact (purge_later now t (fun _ => o) [] T)).
    destruct (bytes_eqb k K2) eqn:Q2, (bytes_eqb k K1) eqn:Q1; [apply bytes_eqb_spec in Q1, Q2; congruence|symmetry; apply C|apply C|reflexivity]. }
  pose proof (later_run now es u v L NB) as E. destruct (spec_run u es) as [ru mu], (spec_run v es) as [rv mv]. cbn [fst] in *. subst rv.
  intros H. injection H as -> -> ->. reflexivity.
Qed.
Example C41_commute_ex : exists s, reachable_kv s /\
  results s [EOp (Some [5%N]) [1%N] (setv (VBytes [7%N]) (Some (T 4))) (T 3); EOp None [1%N] CDelete (T 3); EOp (Some [5%N]) [1%N] (CGet false) (T 3); EOp (Some [5%N]) [1%N] (CGet false) (T 5)] =
    Some [KOk (OStatus Inserted); KOk (OStatus NotChanged); KOk (OValue (Some (VBytes [7%N]))); KOk (OValue None)].
Proof.
  exists (kv_open PImmediate (T 1) []). split; [|vm_compute; reflexivity].
  exists PImmediate, (T 1), (T 1), [], [], (kv_open PImmediate (T 1) []), [].
  split; [split; [split; [exact wf_nil|discriminate]|discriminate]|]. repeat split; constructor.
Qed.
(* Namespaces containing NUL collide (this includes nested namespaces made with
   with_key_namespace, which joins names with NUL): core/src/keyvalue.rs
   Namespaced; and the empty namespace is the same as none. *)
Theorem C41_collision_refuted :
  (exists ns key ns' key', (ns, key) <> (ns', key') /\
     results (kv_open PImmediate (T 1) []) [EOp ns key (setv (VBytes [7%N]) None) (T 2); EOp ns' key' (CGet false) (T 3)]
       = Some [KOk (OStatus Inserted); KOk (OValue (Some (VBytes [7%N])))]
     /\ ns = Some [97%N; 0%N; 98%N]) /\
  (exists key, results (kv_open PImmediate (T 1) []) [EOp (Some []) key (setv (VBytes [7%N]) None) (T 2); EOp None key (CGet false) (T 3)]
       = Some [KOk (OStatus Inserted); KOk (OValue (Some (VBytes [7%N])))]).
Proof.
  split.
  - exists (Some [97%N; 0%N; 98%N]), [99%N], (Some [97%N]), [98%N; 0%N; 99%N]. split; [discriminate|split; reflexivity].
  - exists [1%N]. reflexivity.
Qed.
Print Assumptions C35_map.
Print Assumptions C35_fresh.
Print Assumptions C35_schedule_irrelevant.
Print Assumptions C36_set.
Print Assumptions C37_arith.
Print Assumptions C37_signed.
Print Assumptions C37_unsigned.
Print Assumptions C38_expiration.
Print Assumptions C38_others.
Print Assumptions C38_kept.
Print Assumptions C38_not_yet_loaded_refuted.
Print Assumptions C41_separate.
Print Assumptions C41_commute.
Print Assumptions C41_collision_refuted.
