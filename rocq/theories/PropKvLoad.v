(* C43: loading the stored expirations after opening a database. *)
From Coq Require Import ZifyBool.
From Verif Require Import Kv KvSpec KvProofs KvSim PropKv KvDisk.

(* The loader reads all entries, then sets expirations one key at a time without
   checking again. A key overwritten in between, without expiration, expires. *)
Theorem C43_overwritten_refuted : exists p d launched es k,
  stored_before launched d /\
  es = [ESnap launched; EOp None k (setv (VBytes [8%N]) None) (T 11); ELoad; EOp None k (CGet false) (T 20); EOp None k (CGet false) (T 60)] /\
  results (kv_open p (T 10) d) es = Some [KOk (OStatus Updated); KOk (OValue (Some (VBytes [8%N]))); KOk (OValue None)].
Proof.
  exists PImmediate, [(full_key None [1%N], Entry (VBytes [7%N]) (Some (T 50)) (T 5))], (T 10). eexists. exists [1%N].
  split; [|split; [reflexivity|reflexivity]]. split; [split; [exact I|]|].
  - intros k e. cbn [t_get]. destruct (bytes_eqb k (full_key None [1%N])); [|discriminate]. intros H. injection H as <-. exact I.
  - intros k e. cbn [t_get]. destruct (bytes_eqb k (full_key None [1%N])); [|discriminate]. intros H. injection H as <-. reflexivity.
Qed.
(* ... and a key that was deleted and recreated by an increment, too *)
Theorem C43_recreated_refuted : exists p d launched k,
  stored_before launched d /\
  results (kv_open p (T 10) d) [ESnap launched; EOp None k CDelete (T 11); ELoad; EOp None k (CIncr (NUInt 1) true) (T 12); EOp None k (CGet false) (T 60)]
   = Some [KOk (OStatus Deleted); KOk (OValue (Some (VNum (NUInt 1)))); KOk (OValue None)].
Proof.
  exists PImmediate, [(full_key None [1%N], Entry (VBytes [7%N]) (Some (T 50)) (T 5))], (T 10), [1%N].
  split; [|reflexivity]. split; [split; [exact I|]|].
  - intros k e. cbn [t_get]. destruct (bytes_eqb k (full_key None [1%N])); [|discriminate]. intros H. injection H as <-. exact I.
  - intros k e. cbn [t_get]. destruct (bytes_eqb k (full_key None [1%N])); [|discriminate]. intros H. injection H as <-. reflexivity.
Qed.

(* ---------- what does hold ---------- *)
(* keys stored with an expiration *)
Definition hotb (d : tree entry) (k : bytes) : bool :=
  match t_get k d with Some e => match e_exp e with Some _ => true | None => false end | None => false end.
(* times never decrease, starting at t *)
Fixpoint times_from (t : ts) (es : list event) : Prop :=
  match es with
  | [] => True
  | e :: r => match event_time e with
              | Some t' => ts_leb t t' = true /\ times_from t' r
              | None => times_from t r
              end
  end.
Definition pend (d : tree entry) (snapped : bool) (s : kst) (k : bytes) : bool :=
  hotb d k && (negb snapped || match t_get k (k_load s) with Some _ => true | None => false end).
Definition lagging (tl : ts) (a m : option cell) : Prop := a = m \/ (m = None /\ exists c, a = Some c /\ expired tl c = true).

Definition rel2 (d : tree entry) (l : ts) (snapped : bool) (tl : ts) (s : kst) (m : kmap) : Prop :=
  kinv s /\ NoDup (map fst (k_load s)) /\
  (forall k x, t_get k (k_load s) = Some x -> snapped = true /\ option_map e_exp (t_get k d) = Some x /\ hotb d k = true) /\
  ts_leb l tl = true /\
  forall k, (if pend d snapped s k then kv_get s k = t_get k d /\ t_get k (k_exp s) = None
             else t_get k (k_exp s) = match kv_get s k with Some e => e_exp e | None => None end) /\
            lagging tl (abs s k) (m k) /\ cell_ok (abs s k) /\
            (hotb d k = false -> forall e, kv_get s k = Some e -> e_exp e <> None -> ts_ltb (e_upd e) l = false).

Lemma expired_mono t t' c : ts_leb t t' = true -> expired t c = true -> expired t' c = true.
Proof. unfold expired. destruct (snd c); [|discriminate]. intros. eapply ts_leb_trans; eassumption. Qed.
Lemma lagging_mono t t' a m : ts_leb t t' = true -> lagging t a m -> lagging t' a m.
Proof. intros L [->|(-> & c & -> & E)]; [left; reflexivity|right]. split; [reflexivity|]. exists c. split; [reflexivity|]. eapply expired_mono; eassumption. Qed.

Lemma rel2_expire d l sn tl s m now : rel2 d l sn tl s m -> ts_leb tl now = true ->
  exists s1, kv_expire now s = Some s1 /\ rel2 d l sn now s1 (purge now m) /\
    (forall k, pend d sn s k = false -> abs s1 k = purge now m k) /\ k_load s1 = k_load s.
Proof.
  intros (I & ND & LD & LT & H) L. destruct (kv_expire_ok now s I) as (s1 & E & I1 & G & X & _ & _ & _ & _ & _ & _ & _ & KL).
  exists s1. split; [exact E|].
  assert (PE : forall k, pend d sn s1 k = pend d sn s k) by (intros k; unfold pend; rewrite KL; reflexivity).
  assert (KEY : forall k, pend d sn s k = false -> abs s1 k = purge now m k).
  { intros k P. destruct (H k) as (A & B & C & D). rewrite P in A. unfold abs at 1. rewrite G. unfold due. rewrite A.
    unfold abs in B. destruct (kv_get s k) as [e|] eqn:Ge; cbn [option_map] in *.
    - unfold purge. destruct B as [B|(B & c & Bc & Bx)].
      + rewrite <- B. unfold expired, cell_of. cbn [snd]. destruct (e_exp e) as [t|] eqn:Ee; [destruct (ts_leb t now)|]; cbn; rewrite ?Ee; reflexivity.
      + rewrite B. injection Bc as <-. unfold expired, cell_of in Bx. cbn [snd] in Bx. destruct (e_exp e) as [t|]; [|discriminate].
        rewrite (ts_leb_trans _ _ _ Bx L). reflexivity.
    - unfold purge. destruct B as [B|(B & c & Bc & _)]; [rewrite <- B; reflexivity|discriminate]. }
  split; [|split; [exact KEY|exact KL]].
  split; [exact I1|]. rewrite KL. split; [exact ND|]. split; [exact LD|]. split; [eapply ts_leb_trans; eassumption|].
  intros k. rewrite PE. destruct (H k) as (A & B & C & D). split; [|split; [|split]].
  - rewrite X, G. unfold due. destruct (pend d sn s k).
    + destruct A as [A1 A2]. rewrite A2. auto.
    + rewrite A. destruct (kv_get s k) as [e|]; [|reflexivity]. destruct (e_exp e) as [t|] eqn:Ee; [|cbn; congruence].
      destruct (ts_leb t now); [reflexivity|]. cbn. congruence.
  - destruct (pend d sn s k) eqn:P.
    + destruct A as [A1 A2]. assert (Q : abs s1 k = abs s k) by (unfold abs; rewrite G; unfold due; rewrite A2; reflexivity).
      rewrite Q. unfold purge. destruct B as [B|(B & c & Bc & Bx)].
      * rewrite <- B. destruct (abs s k) as [c|]; [|left; reflexivity]. destruct (expired now c) eqn:Ex; [right|left; reflexivity].
        split; [reflexivity|]. exists c. auto.
      * rewrite B, Bc. right. split; [reflexivity|]. exists c. split; [reflexivity|]. eapply expired_mono; eassumption.
    + left. apply KEY, P.
  - unfold abs in *. rewrite G. destruct (due (k_exp s) now k); [exact Logic.I|exact C].
  - intros HB e. rewrite G. destruct (due (k_exp s) now k); [discriminate|]. apply D, HB.
Qed.

Lemma exec_upd s k c now r s2 : kinv s -> exec s k c now = Some (r, s2) ->
  forall e, kv_get s2 k = Some e -> e_exp e <> None ->
  e_upd e = now \/ exists e0, kv_get s k = Some e0 /\ e_exp e0 = e_exp e /\ e_upd e0 = e_upd e.
Proof.
  intros I X e G NE. destruct c as [sc|dl| |a sat|a sat]; cbn [exec] in X.
  - unfold exec_set in X. destruct (val_validate (s_val sc)) as [v|]; [|injection X as _ <-; right; exists e; auto].
    cbn zeta in X. destruct (match s_check sc with Some OnlyIfPresent => _ | Some OnlyIfVacant => _ | None => true end);
      [|injection X as _ <-; right; exists e; auto].
    set (x := if s_keep sc then _ else _) in X.
    destruct (write_post s k x (Some (Entry v x now)) I eq_refl) as (s1 & U & P & G1 & _). rewrite U in X.
    left. destruct P as (_ & _ & PG & _). specialize (PG k). rewrite bytes_eqb_refl in PG.
    destruct (if (match s_check sc with Some _ => true | None => false end || s_ret sc || s_keep sc)%bool then Some (kv_get s k) else None) in X.
    + injection X as _ <-. unfold kv_set in G. rewrite G in PG. injection PG as ->. reflexivity.
    + rewrite kv_replace_spec in X. injection X as _ <-. unfold kv_set in G. rewrite G in PG. injection PG as ->. reflexivity.
  - unfold exec_get in X. destruct dl; [|injection X as _ <-; right; exists e; auto].
    destruct (kv_remove_ok s k I) as (s3 & K & _ & _ & PG & _). rewrite K in X. injection X as _ <-.
    specialize (PG k). rewrite bytes_eqb_refl in PG. congruence.
  - unfold exec_delete in X. destruct (kv_remove_ok s k I) as (s3 & K & _ & _ & PG & _). rewrite K in X.
    specialize (PG k). rewrite bytes_eqb_refl in PG. destruct (kv_get s k); injection X as _ <-; congruence.
  - unfold exec_numeric in X. destruct (e_val _) as [b|y]; [injection X as _ <-; right; exists e; auto|].
    destruct (num_validate _) as [y'|]; [|injection X as _ <-; right; exists e; auto].
    injection X as _ <-. unfold kv_set in G. rewrite kv_get_dirty, bytes_eqb_refl in G. injection G as <-. cbn in *.
    destruct (kv_get s k) as [e0|]; [right; exists e0; auto|left; reflexivity].
  - unfold exec_numeric in X. destruct (e_val _) as [b|y]; [injection X as _ <-; right; exists e; auto|].
    destruct (num_validate _) as [y'|]; [|injection X as _ <-; right; exists e; auto].
    injection X as _ <-. unfold kv_set in G. rewrite kv_get_dirty, bytes_eqb_refl in G. injection G as <-. cbn in *.
    destruct (kv_get s k) as [e0|]; [right; exists e0; auto|left; reflexivity].
Qed.

(* a change of state that is invisible through the overlay and to the loader *)
Lemma rel2_view d l sn tl s s' m : rel2 d l sn tl s m ->
  kinv s' -> (forall k, kv_get s' k = kv_get s k) -> k_exp s' = k_exp s -> k_load s' = k_load s -> rel2 d l sn tl s' m.
Proof.
  intros (I & ND & LD & LT & H) I' G X L. split; [exact I'|]. rewrite L. split; [exact ND|]. split; [exact LD|]. split; [exact LT|].
  intros k. specialize (H k). unfold pend, abs in *. rewrite L, X, G. exact H.
Qed.
Lemma stage_load s b s1 : stage s = Some (b, s1) -> k_load s1 = k_load s.
Proof. unfold stage. destruct (k_dirty s); [discriminate|]. destruct (k_pers s); [discriminate|]. intros H. injection H as _ <-. reflexivity. Qed.
Lemma rel2_commit d l sn tl s m now (b : bool) : rel2 d l sn tl s m -> rel2 d l sn tl (if b then snd (commit_dirty s now) else s) m.
Proof.
  intros R. destruct b; [|exact R]. unfold commit_dirty. destruct (stage s) as [[bt s1]|] eqn:St; [|exact R].
  destruct (stage_ok s bt s1) as (I1 & G & X & _); [apply R|exact St|]. apply (rel2_view _ _ _ _ s); [exact R|exact I1|exact G|exact X|].
  exact (stage_load s bt s1 St).
Qed.

(* the events of the loading phase: operations only on keys stored without expiration *)
Definition cold (d : tree entry) (e : event) : Prop :=
  match e with EOp ns key _ _ => hotb d (full_key ns key) = false | ESnap _ => False | _ => True end.

Lemma step2 d l sn tl s m e : rel2 d l sn tl s m -> event_ok e ->
  match e with ESnap _ => False | EOp ns key _ _ => pend d sn s (full_key ns key) = false /\ (k_load s = [] /\ sn = true \/ hotb d (full_key ns key) = false)
             | _ => True end ->
  match event_time e with Some t => ts_leb tl t = true | None => True end ->
  let tl' := match event_time e with Some t => t | None => tl end in
  match step s e with
  | SPanic => False
  | SDisabled => spec_event m e = (None, m)
  | SOk o s' => fst (spec_event m e) = o /\ rel2 d l sn tl' s' (snd (spec_event m e)) /\ (forall k, t_get k (k_load s') <> None -> t_get k (k_load s) <> None)
      /\ (k_load s = [] -> k_load s' = [])
  end.
Proof.
  intros R OK NP TM tl'. destruct e as [ns key c now|now| | | |now|l'|]; cbn [event_time] in TM, tl'.
  - cbn [step spec_event]. unfold perform. destruct (rel2_expire _ _ _ _ _ _ _ R TM) as (s1 & -> & R1 & KEY & KL1).
    set (k := full_key ns key) in *. destruct NP as [NPk NPh]. pose proof (KEY k NPk) as AK.
    pose proof R1 as (I1 & ND1 & LD1 & LT1 & H1).
    destruct (exec_ok s1 k c now I1 OK) as (r & s2 & x & X & (I2 & SR & G & Sy & XO) & SP); [apply H1|].
    rewrite X. rewrite <- AK, SP. destruct SR as (_ & _ & _ & _ & _ & _ & _ & KL).
    assert (P1 : pend d sn s1 k = false) by (unfold pend in *; rewrite KL1; exact NPk).
    assert (R2 : rel2 d l sn now s2 (put k (option_map cell_of x) (purge now m))).
    { split; [exact I2|]. rewrite KL. split; [exact ND1|]. split; [exact LD1|]. split; [exact LT1|].
      intros j. destruct (bytes_dec j k) as [->|NE].
      - destruct (H1 k) as (A & B & C & D). rewrite P1 in A.
        assert (Pk : pend d sn s2 k = false) by (unfold pend in *; rewrite KL; exact P1). rewrite Pk.
        assert (GK : kv_get s2 k = x) by (rewrite G, bytes_eqb_refl; reflexivity).
        split; [|split; [|split]].
        + (* the key's own expiration after the operation *)
          apply Sy. exact A.
        + left. unfold abs, put. rewrite bytes_eqb_refl, GK. reflexivity.
        + unfold abs. rewrite GK. replace (option_map cell_of x) with (snd (spec_cmd c (abs s1 k))) by (rewrite SP; reflexivity).
          apply exec_cell_ok; [exact OK|exact C].
        + intros HB e Ge NEx. destruct (exec_upd s1 k c now r s2 I1 X e Ge NEx) as [->|(e0 & G0 & X0 & U0)].
          * unfold ts_ltb. rewrite LT1. reflexivity.
          * rewrite <- U0. apply (D HB e0 G0). congruence.
      - destruct (H1 j) as (A & B & C & D). assert (GJ : kv_get s2 j = kv_get s1 j) by (rewrite G; apply bytes_eqb_neq in NE; rewrite NE; reflexivity).
        assert (Pj : pend d sn s2 j = pend d sn s1 j) by (unfold pend; rewrite KL; reflexivity).
        rewrite Pj, GJ, (XO j NE). split; [exact A|]. unfold abs, put. rewrite GJ. apply bytes_eqb_neq in NE. rewrite NE. auto. }
    destruct r as [o|err]; cbn [fst snd]; (split; [reflexivity|]); (split; [try apply rel2_commit; exact R2|]).
    + assert (Q : k_load (if needs_commit s2 now then snd (commit_dirty s2 now) else s2) = k_load s).
      { rewrite <- KL1, <- KL. destruct (needs_commit s2 now); [|reflexivity]. unfold commit_dirty. destruct (stage s2) as [[b s3]|] eqn:St; [|reflexivity].
        exact (stage_load _ _ _ St). }
      rewrite Q. auto.
    + rewrite KL, KL1. auto.
  - cbn [step spec_event]. unfold bg_round. destruct (rel2_expire _ _ _ _ _ _ _ R TM) as (s1 & -> & R1 & KEY & KL1). cbn [liftp fst snd].
    split; [reflexivity|]. split; [apply rel2_commit, R1|].
    assert (Q : k_load (if needs_commit s1 now then snd (commit_dirty s1 now) else s1) = k_load s).
    { rewrite <- KL1. destruct (needs_commit s1 now); [|reflexivity]. unfold commit_dirty. destruct (stage s1) as [[b s3]|] eqn:St; [|reflexivity].
      exact (stage_load _ _ _ St). }
    rewrite Q. auto.
  - cbn [step spec_event]. destruct (thread_write s) as [s'|] eqn:E; cbn [lift]; [|reflexivity].
    destruct (write_view s s') as (A & B & C); [apply R|exact E|].
    assert (Q : k_load s' = k_load s) by (unfold thread_write in E; destruct (k_thread s) as [[? []]|]; try discriminate; injection E as <-; reflexivity).
    split; [reflexivity|]. split; [eapply rel2_view; eassumption|]. rewrite Q. auto.
  - cbn [step spec_event]. destruct (thread_fail s) as [s'|] eqn:E; cbn [lift]; [|reflexivity].
    destruct (fail_view s s') as (A & B & C); [apply R|exact E|].
    assert (Q : k_load s' = k_load s) by (unfold thread_fail in E; destruct (k_thread s) as [[? []]|]; try discriminate; injection E as <-; reflexivity).
    split; [reflexivity|]. split; [eapply rel2_view; eassumption|]. rewrite Q. auto.
  - cbn [step spec_event]. destruct (thread_finish s) as [s'|] eqn:E; cbn [lift]; [|reflexivity].
    destruct (finish_view s s') as (A & B & C); [apply R|exact E|].
    assert (Q : k_load s' = k_load s).
    { unfold thread_finish in E; destruct (k_thread s) as [[? []]|]; try discriminate; injection E as <-.
      destruct (k_shut s) eqn:Q0 in *; cbn [k_shut set_thread set_pers]; rewrite ?Q0; [|reflexivity].
      destruct (stage (set_thread None (set_pers None s))) as [[b2 s2]|] eqn:St; [|reflexivity]. exact (stage_load _ _ _ St). }
    split; [reflexivity|]. split; [eapply rel2_view; eassumption|]. rewrite Q. auto.
  - cbn [step spec_event fst snd]. split; [reflexivity|].
    assert (Q : k_load (snd (kv_shutdown s now)) = k_load s /\ rel2 d l sn tl (snd (kv_shutdown s now)) m).
    { unfold kv_shutdown. destruct (k_pers s); [auto|]. pose proof (rel2_commit d l sn tl s m now true R) as C.
      unfold commit_dirty in *. destruct (stage s) as [[b s1]|] eqn:St; cbn [snd] in *; [|auto]. split; [exact (stage_load _ _ _ St)|exact C]. }
    destruct Q as [Q1 Q2]. rewrite Q1. auto.
  - destruct NP.
  - cbn [step spec_event]. unfold load_one. destruct (k_load s) as [|[k x] r] eqn:L.
    { cbn [liftp fst snd]. rewrite L. auto. }
    pose proof R as (I & ND & LD & LT & H). pose proof I as (O & Wd & Wk & Wp & Th).
    destruct (update_exp_ok (set_load r s) k x O) as (y & o & -> & O' & X). cbn [liftp fst snd]. split; [reflexivity|].
    rewrite L in *. inversion ND as [|? ? NDk NDr]; subst.
    assert (TK : t_get k r = None) by (apply get_none; exact NDk).
    split; [|split].
    + split; [|split; [exact NDr|split; [|split; [exact LT|]]]].
      * split; [exact O'|]. split; [exact Wd|]. split; [exact Wk|]. split; [exact Wp|exact Th].
      * intros j z Hj. cbn [k_load set_expo set_load] in Hj. apply LD. cbn [t_get]. eqb_cases j k; [congruence|exact Hj].
      * intros j. destruct (H j) as (A & B & C & D). change (kv_get (set_expo y o (set_load r s)) j) with (kv_get s j).
        change (abs (set_expo y o (set_load r s)) j) with (abs s j). cbn [k_exp set_expo].
        rewrite X. split; [|auto].
        destruct (LD k x) as (SN & DX & HK); [cbn [t_get]; rewrite bytes_eqb_refl; reflexivity|].
        unfold pend in *. cbn [k_load set_expo set_load]. rewrite L in A. cbn [t_get] in A. eqb_cases j k.
        -- rewrite TK. cbn [negb orb]. rewrite andb_false_r. rewrite HK in A. cbn [negb orb andb] in A.
           destruct A as [A _]. rewrite A. destruct (t_get k d) as [e|]; [|discriminate]. cbn in DX. injection DX as <-. reflexivity.
        -- cbn [k_exp set_load] in *. exact A.
    + intros j Hj. cbn [k_load set_expo set_load t_get] in *. destruct (bytes_eqb j k); [discriminate|exact Hj].
    + discriminate.
Qed.

Lemma rel2_later d l sn tl tl' s m : ts_leb tl tl' = true -> rel2 d l sn tl s m -> rel2 d l sn tl' s m.
Proof.
  intros L (I & ND & LD & LT & H). split; [exact I|]. split; [exact ND|]. split; [exact LD|]. split; [eapply ts_leb_trans; eassumption|].
  intros k. destruct (H k) as (A & B & C & D). split; [exact A|]. split; [eapply lagging_mono; eassumption|]. auto.
Qed.
Fixpoint last_time (t : ts) (es : list event) : ts :=
  match es with [] => t | e :: r => last_time (match event_time e with Some t' => t' | None => t end) r end.
Lemma times_app t a b : times_from t (a ++ b) <-> times_from t a /\ times_from (last_time t a) b.
Proof.
  revert t; induction a as [|e r IH]; intros t; cbn [app times_from last_time]; [intuition|].
  destruct (event_time e); rewrite IH; intuition.
Qed.

Lemma run2 d l sn es : forall tl s m, rel2 d l sn tl s m -> Forall event_ok es -> times_from tl es ->
  (Forall (cold d) es \/ (Forall no_loader es /\ k_load s = [] /\ sn = true)) ->
  exists rs s', run s es = Some (rs, s') /\ rs = fst (spec_run m es) /\
    rel2 d l sn (last_time tl es) s' (snd (spec_run m es)) /\ (k_load s = [] -> k_load s' = []).
Proof.
  induction es as [|e r IH]; intros tl s m R OK TM CO; cbn [run spec_run last_time].
  - exists [], s. auto.
  - inversion OK as [|? ? O1 O2]; subst. cbn [times_from] in TM.
    assert (TM' : match event_time e with Some t => ts_leb tl t = true | None => True end /\
                  times_from (match event_time e with Some t' => t' | None => tl end) r).
    { destruct (event_time e); [exact TM|split; [exact I|exact TM]]. }
    destruct TM' as [T1 T2]. set (tl' := match event_time e with Some t' => t' | None => tl end) in *.
    assert (LE : ts_leb tl tl' = true) by (subst tl'; destruct (event_time e); [exact T1|apply ts_leb_refl]).
    assert (PRE : match e with ESnap _ => False | EOp ns key _ _ => pend d sn s (full_key ns key) = false /\ (k_load s = [] /\ sn = true \/ hotb d (full_key ns key) = false) | _ => True end).
    { destruct CO as [CO|(NL & L0 & ->)].
      - inversion CO as [|? ? C1 C2]; subst. destruct e; try exact I; try (destruct C1; fail). cbn in C1.
        split; [unfold pend; rewrite C1; reflexivity|right; exact C1].
      - inversion NL as [|? ? C1 C2]; subst. destruct e; try exact I; try (destruct C1; fail).
        split; [unfold pend; rewrite L0; cbn; rewrite andb_false_r; reflexivity|left; auto]. }
    pose proof (step2 d l sn tl s m e R O1 PRE T1) as ST. cbn zeta in ST. fold tl' in ST.
    assert (CO' : forall s1, (k_load s = [] -> k_load s1 = []) ->
       Forall (cold d) r \/ (Forall no_loader r /\ k_load s1 = [] /\ sn = true)).
    { intros s1 L1. destruct CO as [CO|(NL & L0 & ->)]; [left; inversion CO; assumption|right]. inversion NL; auto. }
    destruct (step s e) as [| |o s1].
    + destruct ST.
    + rewrite ST. destruct (IH tl' s m) as (rs & s' & E & Q & R' & L'); try assumption.
      { eapply rel2_later; eassumption. }
      { apply CO'. auto. }
      exists rs, s'. rewrite E. destruct (spec_run m r) as [rs2 m2]. cbn in *. auto.
    + destruct ST as (Q & R1 & _ & L1). destruct (spec_event m e) as [o' m']. cbn [fst snd] in *. subst o'.
      destruct (IH tl' s1 m') as (rs & s' & -> & Q & R' & L'); try assumption; [apply CO', L1|].
      destruct (spec_run m' r) as [rs2 m2]. cbn [fst snd] in *. subst rs2.
      eexists _, s'. split; [reflexivity|]. split; [destruct o; reflexivity|]. split; [exact R'|]. auto.
Qed.

Lemma rel2_snap d l tl s m : stored_before l d -> rel2 d l false tl s m -> k_load s = [] -> rel2 d l true tl (load_snapshot l s) m.
Proof.
  intros [_ SB] (I & _ & _ & LT & H) L0.
  assert (GL : forall k, t_get k (k_load (load_snapshot l s)) =
                 match kv_get s k with Some e => if wants l e then Some (e_exp e) else None | None => None end).
  { intros k. rewrite load_snapshot_list, (get_map_filter (wants l) e_exp) by (apply all_entries_wf, I). rewrite (get_all_entries s k I). reflexivity. }
  assert (HOT : forall k x, t_get k (k_load (load_snapshot l s)) = Some x ->
            hotb d k = true /\ option_map e_exp (t_get k d) = Some x).
  { intros k x Hx. rewrite GL in Hx. destruct (kv_get s k) as [e|] eqn:G; [|discriminate]. destruct (wants l e) eqn:W; [|discriminate].
    injection Hx as <-. destruct (H k) as (A & _ & _ & D). unfold wants in W. apply andb_true_iff in W. destruct W as [W1 W2].
    destruct (hotb d k) eqn:HB.
    - split; [reflexivity|]. unfold pend in A. rewrite HB in A. cbn in A. destruct A as [A _]. rewrite <- A, G. reflexivity.
    - exfalso. assert (NE : e_exp e <> None) by (destruct (e_exp e); [discriminate|discriminate W2]).
      rewrite (D eq_refl e G NE) in W1. discriminate. }
  split; [exact I|]. split; [rewrite load_snapshot_list; apply load_keys_nodup, all_entries_wf, I|].
  split; [intros k x Hx; destruct (HOT k x Hx); auto|]. split; [exact LT|].
  intros k. destruct (H k) as (A & B & C & D). change (kv_get (load_snapshot l s) k) with (kv_get s k).
  change (k_exp (load_snapshot l s)) with (k_exp s). change (abs (load_snapshot l s) k) with (abs s k).
  split; [|auto]. unfold pend in *. rewrite GL. cbn [negb orb] in *. destruct (hotb d k) eqn:HB; cbn [andb] in *; [|exact A].
  destruct A as [A1 A2]. unfold hotb in HB. rewrite A1. destruct (t_get k d) as [e|] eqn:G; [|discriminate].
  destruct (e_exp e) eqn:Ee; [|discriminate]. unfold wants. rewrite (SB k e G), Ee. cbn [andb]. rewrite A2. auto.
Qed.

(* C43, the part that holds: as long as no operation touches a key stored with an
   expiration until the loader is done, every result, during and after loading, is
   that of the plain map with expirations, however the loader's steps interleave
   with operations on other keys, the worker and the writer (times being at least
   the loader's start and not decreasing). *)
Theorem C43_loading p now l d before during later :
  stored_before l d ->
  Forall event_ok (before ++ [ESnap l] ++ during ++ later) -> times_from l (before ++ [ESnap l] ++ during ++ later) ->
  Forall (cold d) before -> Forall (cold d) during -> Forall no_loader later ->
  Forall no_loader before ->
  exists rs1 s1 rs2 s2,
    run (kv_open p now d) (before ++ [ESnap l] ++ during) = Some (rs1, s1) /\
    (k_load s1 = [] ->
     run s1 later = Some (rs2, s2) /\
     rs1 ++ rs2 = fst (spec_run (disk_map d) (before ++ [ESnap l] ++ during ++ later))).
Proof.
  intros SB OK TM CB CD NLt NB. pose proof SB as [[W V] B].
  apply Forall_app in OK. destruct OK as [OB OK]. apply Forall_app in OK. destruct OK as [_ OK]. apply Forall_app in OK. destruct OK as [OD OL].
  apply times_app in TM. destruct TM as [TB TM]. apply times_app in TM. destruct TM as [_ TM]. cbn [last_time event_time] in TM.
  apply times_app in TM. destruct TM as [TD TL].
  assert (R0 : rel2 d l false l (kv_open p now d) (disk_map d)).
  { split; [apply kinv_open, W|]. split; [constructor|]. split; [intros k x H; discriminate H|]. split; [apply ts_leb_refl|].
    intros k. change (kv_get (kv_open p now d) k) with (t_get k d). change (t_get k (k_exp (kv_open p now d))) with (@None ts).
    split; [|split; [left; reflexivity|split]].
    - unfold pend, hotb. destruct (t_get k d) as [e|]; [|reflexivity]. destruct (e_exp e) eqn:Ee; cbn; [auto|congruence].
    - unfold abs. change (kv_get (kv_open p now d) k) with (t_get k d). destruct (t_get k d) as [e|] eqn:G; [|exact I]. exact (V k e G).
    - intros HB e G NE. unfold hotb in HB. rewrite G in HB. destruct (e_exp e); [discriminate|congruence]. }
  destruct (run2 d l false before l _ _ R0 OB TB (or_introl CB)) as (rb & sb & Eb & Qb & Rb & Lb). specialize (Lb eq_refl).
  pose proof (rel2_snap d l _ sb _ SB Rb Lb) as Rs.
  destruct (run2 d l true during _ _ _ Rs OD TD (or_introl CD)) as (rd & sd & Ed & Qd & Rd & _).
  assert (E1 : run (kv_open p now d) (before ++ [ESnap l] ++ during) = Some (rb ++ rd, sd)).
  { rewrite run_app, Eb. cbn [app run step]. rewrite Ed. reflexivity. }
  assert (FIN : k_load sd = [] -> exists rl sl, run sd later = Some (rl, sl) /\ rl = fst (spec_run (snd (spec_run (snd (spec_run (disk_map d) before)) during)) later)).
  { intros Ld. destruct (run2 d l true later _ _ _ Rd OL TL) as (rl & sl & El & Ql & _); [right; auto|]. exists rl, sl. auto. }
  destruct (k_load sd) eqn:Ld.
  - destruct (FIN eq_refl) as (rl & sl & El & Ql). exists (rb ++ rd), sd, rl, sl. split; [exact E1|]. intros _. split; [exact El|].
    subst rb rd rl. rewrite spec_run_app. destruct (spec_run (disk_map d) before) as [x1 m1]. cbn [app]. cbn [spec_run spec_event].
    rewrite spec_run_app. cbn [fst snd] in *. destruct (spec_run m1 during) as [x2 m2]. cbn [fst snd]. destruct (spec_run m2 later) as [x3 m3]. cbn [fst snd].
    rewrite app_assoc. reflexivity.
  - exists (rb ++ rd), sd, [], sd. split; [exact E1|]. rewrite Ld. discriminate.
Qed.
Example C43_ex : let d := [(full_key None [1%N], Entry (VBytes [7%N]) (Some (T 50)) (T 5))] in
  let before := [EOp None [2%N] (setv (VBytes [1%N]) (Some (T 30))) (T 11)] in
  let during := [EOp None [2%N] (setv (VBytes [2%N]) None) (T 12); ELoad; ETick (T 13)] in
  Forall (cold d) before /\ Forall (cold d) during /\ times_from (T 10) (before ++ [ESnap (T 10)] ++ during) /\
  option_map (fun p => k_load (snd p)) (run (kv_open PImmediate (T 1) d) (before ++ [ESnap (T 10)] ++ during)) = Some [] /\
  results (kv_open PImmediate (T 1) d) ((before ++ [ESnap (T 10)] ++ during) ++ [EOp None [2%N] (CGet false) (T 40); EOp None [1%N] (CGet false) (T 49); EOp None [1%N] (CGet false) (T 50)])
   = Some [KOk (OStatus Inserted); KOk (OStatus Updated); KOk (OValue (Some (VBytes [2%N]))); KOk (OValue (Some (VBytes [7%N]))); KOk (OValue None)].
Proof. repeat split; repeat constructor. Qed.
Print Assumptions C43_overwritten_refuted.
Print Assumptions C43_recreated_refuted.
Print Assumptions C43_loading.
