(* C102: awaiting an asynchronous builder makes the calls the blocking builder makes, each once,
   and only once it is awaited. *)
From Verif Require Import Base Tree View Docs Typed Kv KvApi AsyncBuilders.
From Coq Require Import Lia Arith.

Section General.
  Context {Q A R O : Type}.
  Variable ans : nat -> Q -> A.

  Lemma blocking_ready (p : prog Q A R) : forall c, snd (blocking ans p c) <> AsyncBuilders.Pending.
  Proof.
    induction p as [r| |q k IH]; intros c; cbn; try discriminate.
    specialize (IH (ans c q) (S c)). destruct (blocking ans (k (ans c q)) (S c)). exact IH.
  Qed.

  Lemma advance_spec (p : prog Q A R) : forall c n,
    let '(f, l, r) := advance ans p c n in
    l = firstn (S n) (fst (blocking ans p c)) /\
    (if (length (fst (blocking ans p c)) <=? n)%nat
     then r = snd (blocking ans p c)
     else r = AsyncBuilders.Pending /\
          exists c' q k, f = Waiting c' q k /\
            blocking ans (Call q k) c' = (skipn n (fst (blocking ans p c)), snd (blocking ans p c))).
  Proof.
    induction p as [r| |q k IH]; intros c n; cbn [advance blocking fst snd length].
    - cbn. now split.
    - cbn. now split.
    - destruct n as [|n].
      + destruct (blocking ans (k (ans c q)) (S c)) as [l r] eqn:E. cbn. split; [reflexivity|].
        split; [reflexivity|]. do 3 eexists. split; [reflexivity|]. cbn. now rewrite E.
      + specialize (IH (ans c q) (S c) n).
        destruct (advance ans (k (ans c q)) (S c) n) as [[f l] r].
        destruct (blocking ans (k (ans c q)) (S c)) as [bl br]. cbn [fst snd] in *.
        destruct IH as (A1 & A2). split; [now rewrite A1|]. cbn [length]. exact A2.
  Qed.

  Variable body : O -> prog Q A R.

  Lemma drive_waiting : forall polls c q k bl br,
    blocking ans (Call q k) c = (q :: bl, br) ->
    drive ans body (Executing (Waiting c q k)) polls
    = (firstn (list_sum polls) bl,
       if (length (q :: bl) <=? list_sum polls)%nat then br else AsyncBuilders.Pending).
  Proof.
    induction polls as [|n polls IH]; intros c q k bl br E; [reflexivity|].
    assert (E' : blocking ans (k (ans c q)) (S c) = (bl, br)).
    { cbn in E. destruct (blocking ans (k (ans c q)) (S c)). congruence. }
    assert (NR : br <> AsyncBuilders.Pending).
    { pose proof (blocking_ready (k (ans c q)) (S c)). rewrite E' in H. exact H. }
    cbn [drive]. unfold poll, poll_fut. destruct n as [|n].
    - rewrite (IH c q k bl br E). reflexivity.
    - pose proof (advance_spec (k (ans c q)) (S c) n) as S0.
      destruct (advance ans (k (ans c q)) (S c) n) as [[f l] r]. rewrite E' in S0. cbn [fst snd] in S0.
      destruct S0 as (-> & S1). cbn [list_sum fold_right length].
      change (fold_right Nat.add 0%nat polls) with (list_sum polls).
      destruct (length bl <=? n)%nat eqn:L.
      + subst r. apply Nat.leb_le in L.
        assert (X : (S (length bl) <=? S n + list_sum polls)%nat = true) by (apply Nat.leb_le; lia).
        rewrite X.
        assert (Y : forall m, (length bl <= m)%nat -> firstn m bl = bl) by (intros; now apply firstn_all2).
        rewrite (Y (S n)) by lia. rewrite (Y (S n + list_sum polls)%nat) by lia. destruct br; congruence.
      + destruct S1 as (-> & c' & q' & k' & -> & B). apply Nat.leb_gt in L.
        destruct (skipn n bl) as [|x t] eqn:Sk.
        { pose proof (skipn_length n bl) as Y. rewrite Sk in Y. cbn in Y. lia. }
        assert (x = q'). { cbn in B. destruct (blocking ans (k' (ans c' q')) (S c')). congruence. } subst x.
        rewrite (IH c' q' k' t br B).
        assert (Ebl : bl = firstn n bl ++ q' :: t) by (rewrite <- Sk; symmetry; apply firstn_skipn).
        assert (Ln : length (firstn n bl) = n) by (rewrite firstn_length; lia).
        f_equal.
        * rewrite Ebl at 1 2.
          replace (S n) with (length (firstn n bl) + 1)%nat by lia.
          rewrite firstn_app_2.
          replace (length (firstn n bl) + 1 + list_sum polls)%nat with (length (firstn n bl) + S (list_sum polls))%nat by lia.
          rewrite firstn_app_2. cbn. now rewrite <- app_assoc.
        * assert (Lb : length bl = (n + S (length t))%nat).
          { rewrite Ebl, app_length, Ln. reflexivity. }
          rewrite Lb. cbn [length].
          replace (S (n + S (length t)) <=? S n + list_sum polls)%nat with (S (length t) <=? list_sum polls)%nat; [reflexivity|].
          apply eq_true_iff_eq. rewrite !Nat.leb_le. lia.
  Qed.

  (* Whatever the polls and the options: the requests sent are the first of those of the
     blocking call, one more than were answered, and the outcome is the blocking one as soon as
     all of them are.  Without a poll there is none. *)
  Theorem C102_same o polls :
    drive ans body (Options o) polls
    = match polls with
      | [] => ([], AsyncBuilders.Pending)
      | _ => (firstn (S (list_sum polls)) (fst (blocking ans (body o) 0)),
              if (length (fst (blocking ans (body o) 0)) <=? list_sum polls)%nat
              then snd (blocking ans (body o) 0) else AsyncBuilders.Pending)
      end.
  Proof.
    destruct polls as [|n polls]; [reflexivity|]. cbn [drive]. unfold poll.
    pose proof (advance_spec (body o) 0 n) as S0.
    destruct (advance ans (body o) 0 n) as [[f l] r].
    pose proof (blocking_ready (body o) 0) as NR.
    destruct (blocking ans (body o) 0) as [bl br]. cbn [fst snd] in *.
    destruct S0 as (-> & S1). cbn [list_sum fold_right]. change (fold_right Nat.add 0%nat polls) with (list_sum polls).
    destruct (length bl <=? n)%nat eqn:L.
    - subst r. apply Nat.leb_le in L.
      assert (X : (length bl <=? n + list_sum polls)%nat = true) by (apply Nat.leb_le; lia). rewrite X.
      rewrite (firstn_all2 bl (n := S n)) by lia. rewrite firstn_all2 by lia. destruct br; congruence.
    - destruct S1 as (-> & c' & q' & k' & -> & B). apply Nat.leb_gt in L.
      destruct (skipn n bl) as [|x t] eqn:Sk.
      { pose proof (skipn_length n bl) as Y. rewrite Sk in Y. cbn in Y. lia. }
      assert (x = q'). { cbn in B. destruct (blocking ans (k' (ans c' q')) (S c')). congruence. } subst x.
      rewrite (drive_waiting polls c' q' k' t br B).
      assert (Ebl : bl = firstn n bl ++ q' :: t) by (rewrite <- Sk; symmetry; apply firstn_skipn).
      assert (Ln : length (firstn n bl) = n) by (rewrite firstn_length; lia).
      f_equal.
      + rewrite Ebl at 1 2.
        replace (S n) with (length (firstn n bl) + 1)%nat by lia. rewrite firstn_app_2.
        replace (S (n + list_sum polls)) with (length (firstn n bl) + S (list_sum polls))%nat by lia.
        rewrite firstn_app_2. cbn. now rewrite <- app_assoc.
      + assert (Lb : length bl = (n + S (length t))%nat) by (rewrite Ebl, app_length, Ln; reflexivity).
        rewrite Lb. cbn [length].
        replace (n + S (length t) <=? n + list_sum polls)%nat with (S (length t) <=? list_sum polls)%nat; [reflexivity|].
        apply eq_true_iff_eq. rewrite !Nat.leb_le. lia.
  Qed.

  (* Awaited to the end: exactly the blocking calls and their outcome. *)
  Theorem C102_once o polls l r :
    drive ans body (Options o) polls = (l, r) -> r <> AsyncBuilders.Pending ->
    (l, r) = blocking ans (body o) 0.
  Proof.
    rewrite C102_same. destruct polls as [|n polls]; [intros [= <- <-]; congruence|].
    destruct (blocking ans (body o) 0) as [bl br]. cbn [fst snd].
    destruct (length bl <=? list_sum (n :: polls))%nat eqn:L; intros E NP; injection E as <- <-.
    - f_equal. apply Nat.leb_le in L. change (firstn (S (list_sum (n :: polls))) bl = bl). apply firstn_all2. lia.
    - now contradiction NP.
  Qed.
End General.

Section More.
  Context {Q A R O : Type}.
  Variable ans : nat -> Q -> A.
  Variable body : O -> prog Q A R.

  (* Nothing is sent before the first poll, however the options are set. *)
  Theorem C102_lazy (b : bstate Q A R O) : drive ans body b [] = ([], AsyncBuilders.Pending).
  Proof. reflexivity. Qed.

  (* Dropped at any time: no request was sent that the blocking call does not make, none
     twice, none out of order. *)
  Theorem C102_dropped o polls : exists rest,
    fst (blocking ans (body o) 0) = fst (drive ans body (Options o) polls) ++ rest.
  Proof.
    rewrite C102_same. destruct polls as [|n polls]; [cbn; eauto|]. cbn [fst].
    exists (skipn (S (list_sum (n :: polls))) (fst (blocking ans (body o) 0))). symmetry. apply firstn_skipn.
  Qed.

  (* It completes when it is polled and its calls are answered. *)
  Theorem C102_completes o polls :
    polls <> [] -> (length (fst (blocking ans (body o) 0)) <= list_sum polls)%nat ->
    drive ans body (Options o) polls = blocking ans (body o) 0.
  Proof.
    intros NE L. rewrite (surjective_pairing (drive ans body (Options o) polls)).
    apply C102_once with (polls := polls).
    - apply surjective_pairing.
    - rewrite C102_same. destruct polls; [congruence|]. cbn [snd]. apply Nat.leb_le in L. rewrite L. apply blocking_ready.
  Qed.

  (* Once polled, the options cannot be changed any more (it panics), and once it ended it
     cannot be polled again (it panics). *)
  Theorem C102_no_reuse o n (g : O -> O) :
    let '(b, _, r) := poll ans body (Options o) n in
    set_option g b = None /\ (r <> AsyncBuilders.Pending -> forall m, snd (poll ans body b m) = Panicked).
  Proof.
    unfold poll. pose proof (advance_spec ans (body o) 0 n) as S0.
    pose proof (blocking_ready ans (body o) 0) as NR.
    assert (E : forall (p : prog Q A R) c n f l r, advance ans p c n = (f, l, r) -> r <> AsyncBuilders.Pending -> f = Ended).
    { induction p as [r0| |q k IH]; intros c m f l r; cbn [advance].
      - now intros [= <- _ _].
      - now intros [= <- _ _].
      - destruct m as [|m]; [intros [= _ _ <-]; congruence|].
        destruct (advance ans (k (ans c q)) (S c) m) as [[f' l'] r'] eqn:X. intros [= <- _ <-] NP.
        exact (IH _ _ _ _ _ _ X NP). }
    destruct (advance ans (body o) 0 n) as [[f l] r] eqn:X. split; [reflexivity|].
    intros NP m. rewrite (E _ _ _ _ _ _ X NP). reflexivity.
  Qed.
End More.

(* ---------- key-value builders ---------- *)
Definition as_polled {X} (o : outcome X aerr) : polled (outcome X aerr) :=
  match o with Panic => Panicked | x => Ready x end.
Lemma kv_call_blocking {X} s now ans ns key c (read : output -> outcome X aerr) :
  (forall q, ans 0%nat q = kv_answer s now q) ->
  blocking ans (kv_call (ns, key, c) read) 0
  = ([(ns, key, c)], as_polled (snd (operate s ns key c now read))).
Proof.
  intros H. cbn [kv_call blocking]. rewrite H. unfold kv_answer, operate.
  destruct (perform s ns key c now) as [[[o|e] s']|]; cbn; try reflexivity.
  now destruct (read o).
Qed.

(* Awaited until it is answered, with the call executed by the store in state s at time now:
   one request, and what the blocking builder returns there (C77). *)
Theorem C102_set V (C : serde V) (b : set_builder V) s now ans polls :
  (forall q, ans 0%nat q = kv_answer s now q) -> (1 <= list_sum polls)%nat ->
  snd (drive ans (set_body C) (Options b) polls) = as_polled (snd (execute C b s now)) /\
  snd (drive ans (previous_body C) (Options b) polls) = as_polled (snd (returning_previous C b s now)) /\
  (length (fst (drive ans (set_body C) (Options b) polls)) <= 1)%nat /\
  (prepare C (b_value b) = None -> fst (drive ans (set_body C) (Options b) polls) = []).
Proof.
  intros H L.
  assert (NE : polls <> []) by (intros ->; cbn in L; lia).
  assert (B1 : blocking ans (set_body C b) 0 = (fst (blocking ans (set_body C b) 0), as_polled (snd (execute C b s now)))
               /\ (length (fst (blocking ans (set_body C b) 0)) <= 1)%nat
               /\ (prepare C (b_value b) = None -> fst (blocking ans (set_body C b) 0) = [])).
  { unfold set_body, execute. destruct (prepare C (b_value b)) as [v|].
    - rewrite (kv_call_blocking s now) by exact H. cbn. repeat split; try lia; discriminate.
    - cbn. repeat split; lia. }
  assert (B2 : blocking ans (previous_body C b) 0 = (fst (blocking ans (previous_body C b) 0), as_polled (snd (returning_previous C b s now)))
               /\ (length (fst (blocking ans (previous_body C b) 0)) <= 1)%nat).
  { unfold previous_body, returning_previous. destruct (prepare C (b_value b)) as [v|].
    - rewrite (kv_call_blocking s now) by exact H. cbn. split; [reflexivity|lia].
    - cbn. split; [reflexivity|lia]. }
  destruct B1 as (B1 & L1 & Z1), B2 as (B2 & L2).
  rewrite !C102_completes by (try exact NE; lia). rewrite B1, B2. cbn [fst snd]. auto.
Qed.
Theorem C102_get (b : get_builder) s now ans polls :
  (forall q, ans 0%nat q = kv_answer s now q) -> (1 <= list_sum polls)%nat ->
  drive ans get_body (Options b) polls
  = ([(g_ns b, g_key b, CGet (g_delete b))], as_polled (snd (query b s now))).
Proof.
  intros H L.
  assert (NE : polls <> []) by (intros ->; cbn in L; lia).
  rewrite C102_completes; [unfold get_body; now rewrite (kv_call_blocking s now)|exact NE|].
  unfold get_body. rewrite (kv_call_blocking s now) by exact H. exact L.
Qed.
Theorem C102_increment (b : inc_builder) s now ans polls :
  (forall q, ans 0%nat q = kv_answer s now q) -> (1 <= list_sum polls)%nat ->
  length (fst (drive ans inc_body (Options b) polls)) = 1%nat /\
  snd (drive ans inc_body (Options b) polls) = as_polled (snd (inc_execute b s now)).
Proof.
  intros H L.
  assert (NE : polls <> []) by (intros ->; cbn in L; lia).
  rewrite C102_completes; [unfold inc_body; now rewrite (kv_call_blocking s now)|exact NE|].
  unfold inc_body. rewrite (kv_call_blocking s now) by exact H. exact L.
Qed.

(* ---------- lists ---------- *)
Lemma list_chain_options {Q A R} l : forall o,
  list_chain (Q := Q) (A := A) (R := R) l (Options o)
  = Some (Options (LOpts (lo_range o)
      (fst (fold_left (fun c x => match x with Ascending => (true, snd c) | Descending => (false, snd c) | Limit n => (fst c, Some n) end) l (lo_asc o, lo_limit o)))
      (snd (fold_left (fun c x => match x with Ascending => (true, snd c) | Descending => (false, snd c) | Limit n => (fst c, Some n) end) l (lo_asc o, lo_limit o))))).
Proof.
  induction l as [|x l IH]; intros [r a m]; [reflexivity|]. cbn [list_chain set_option].
  destruct x; cbn [list_set]; rewrite IH; reflexivity.
Qed.
Theorem C102_list T (p : session) (C : collection T) (s : dbstate) (r : range) (l : list setting) ans polls :
  (forall q, ans 0%nat q = list_answer p C s q) -> (1 <= list_sum polls)%nat ->
  exists b, list_chain l (Options (list_new r)) = Some b /\
    fst (drive ans (list_body C) b polls) = [(r, fst (configure l), snd (configure l))] /\
    snd (drive ans (list_body C) b polls)
    = match list_query p C s r l with Panic => Panicked | x => Ready x end.
Proof.
  intros H L. eexists. split; [apply list_chain_options|]. cbn [list_new lo_range lo_asc lo_limit].
  fold (configure l).
  assert (NE : polls <> []) by (intros ->; cbn in L; lia).
  set (o := LOpts r (fst (configure l)) (snd (configure l))).
  assert (B : blocking ans (list_body C o) 0
              = ([(r, fst (configure l), snd (configure l))],
                 match list_query p C s r l with Panic => Panicked | x => Ready x end)).
  { unfold list_body, o. cbn [blocking lo_range lo_asc lo_limit]. rewrite H. unfold list_answer, list_query, with_range.
    destruct (bound_id (co_key C) (fst (range_bounds r))) as [lo|e|]; try reflexivity.
    destruct (bound_id (co_key C) (snd (range_bounds r))) as [hi|e|]; try reflexivity.
    destruct (list_docs p s (co_name C) lo hi (fst (configure l)) (snd (configure l))) as [ds|e|]; try reflexivity.
    now destruct (typed_docs C ds). }
  rewrite C102_completes; [rewrite B; now split|exact NE|]. rewrite B. exact L.
Qed.

(* ---------- entries ---------- *)
Definition is_update {Id D} (q : ereq Id D) : bool := match q with EUpdate _ _ => true | _ => false end.
Definition is_push {Id D} (q : ereq Id D) : bool := match q with EPush _ => true | _ => false end.
Definition count_if {X} (f : X -> bool) (l : list X) : nat := length (filter f l).
Lemma entry_loop_calls {Id D} (ans : nat -> ereq Id D -> eans Id D) f : forall limit i d c,
  (count_if is_update (fst (blocking ans (entry_loop f i d limit) c)) <= S limit)%nat /\
  count_if is_push (fst (blocking ans (entry_loop f i d limit) c)) = 0%nat /\
  (length (fst (blocking ans (entry_loop f i d limit) c)) <= S (2 * limit))%nat.
Proof.
  induction limit as [|limit IH]; intros i d c.
  - cbn [entry_loop blocking]. destruct (ans c (EUpdate i (f d))); cbn; lia.
  - cbn [entry_loop blocking]. destruct (ans c (EUpdate i (f d))) as [o|i'|j|]; cbn [blocking fst]; try (cbn; lia).
    destruct (ans (S c) (ELoad (Some j))) as [[[i1 d1]|]|i'|j'|]; cbn [blocking fst]; try (cbn; lia).
    destruct (IH i1 d1 (S (S c))) as (A1 & A2 & A3).
    destruct (blocking ans (entry_loop f i1 d1 limit) (S (S c))) as [bl br]. cbn [fst] in *.
    unfold count_if in *. cbn. lia.
Qed.
(* An entry awaited however long: at most retry_limit + 1 updates, at most one insertion, and
   never both; the options may be given in any order. *)
Theorem C102_entry Id D (ans : nat -> ereq Id D -> eans Id D) o polls :
  let l := fst (drive ans entry_body (Options o) polls) in
  (count_if is_update l <= S (e_retry o))%nat /\ (count_if is_push l <= 1)%nat /\
  (count_if is_update l = 0%nat \/ count_if is_push l = 0%nat) /\
  (length l <= 2 + 2 * e_retry o)%nat /\
  (e_update o = None -> count_if is_update l = 0%nat) /\
  (e_insert o = None -> count_if is_push l = 0%nat).
Proof.
  cbv zeta. destruct (C102_dropped ans entry_body o polls) as (rest & E).
  set (l := fst (drive ans entry_body (Options o) polls)) in *.
  assert (B : let l := fst (blocking ans (entry_body o) 0) in
    (count_if is_update l <= S (e_retry o))%nat /\ (count_if is_push l <= 1)%nat /\
    (count_if is_update l = 0%nat \/ count_if is_push l = 0%nat) /\
    (length l <= 2 + 2 * e_retry o)%nat /\
    (e_update o = None -> count_if is_update l = 0%nat) /\
    (e_insert o = None -> count_if is_push l = 0%nat)).
  { cbv zeta. unfold entry_body. cbn [blocking].
    destruct (ans 0%nat (ELoad None)) as [[[i d]|]|i'|j'|]; cbn [blocking fst];
      try (unfold count_if; cbn; intuition lia).
    - destruct (e_update o) as [f|]; [|unfold count_if; cbn; intuition lia].
      destruct (entry_loop_calls ans f (e_retry o) i d 1%nat) as (A1 & A2 & A3).
      destruct (blocking ans (entry_loop f i d (e_retry o)) 1) as [bl br]. cbn [fst] in *.
      unfold count_if in *. cbn. repeat split; try lia. discriminate.
    - destruct (e_insert o) as [d|]; [|unfold count_if; cbn; intuition lia].
      cbn [blocking]. destruct (ans 1%nat (EPush d)); unfold count_if; cbn; (repeat split; try lia; discriminate). }
  cbv zeta in B. rewrite E in B. unfold count_if in *. rewrite !filter_app, !app_length in B.
  destruct B as (B1 & B2 & B3 & B4 & B5 & B6). repeat split; try lia.
Qed.
(* What the entry's result says about its calls, and what each call was made for. *)
Definition entry_said {Id D} (ans : nat -> ereq Id D -> eans Id D) (o : entry_options D) (k updates : nat) (q : ereq Id D) (r : eres Id D) : Prop :=
  match r with
  | EOk (Some (i, d)) =>
      (q = ELoad None /\ e_update o = None /\ ans k q = EDoc (Some (i, d))) \/
      (exists i0, q = EUpdate i0 d /\ ans k q = EStored i) \/
      (q = EPush d /\ e_insert o = Some d /\ ans k q = EStored i)
  | EOk None => (exists n, q = ELoad n) /\ ans k q = EDoc None /\ (k = 0%nat -> e_insert o = None)
  | EErrConflict j => (exists i d, q = EUpdate i d) /\ ans k q = EConflict j /\ updates = S (e_retry o)
  | EErr => match q with
            | ELoad _ => forall x, ans k q <> EDoc x
            | EUpdate _ _ => (forall x, ans k q <> EStored x) /\ (forall x, ans k q <> EConflict x)
            | EPush _ => forall x, ans k q <> EStored x
            end
  end.
Lemma entry_loop_said Id D (ans : nat -> ereq Id D -> eans Id D) f : forall limit i d c l r,
  blocking ans (entry_loop f i d limit) c = (l, r) ->
  exists x p q, r = Ready x /\ nth_error l p = Some q /\ length l = S p /\
    (match x with
     | EOk (Some (i', d')) => exists i0, q = EUpdate i0 d' /\ ans (c + p)%nat q = EStored i'
     | EOk None => (exists n, q = ELoad n) /\ ans (c + p)%nat q = EDoc None
     | EErrConflict j => (exists i d, q = EUpdate i d) /\ ans (c + p)%nat q = EConflict j /\ count_if is_update l = S limit
     | EErr => match q with
               | ELoad _ => forall x, ans (c + p)%nat q <> EDoc x
               | EUpdate _ _ => (forall x, ans (c + p)%nat q <> EStored x) /\ (forall x, ans (c + p)%nat q <> EConflict x)
               | EPush _ => False
               end
     end) /\
    (forall n i' d', nth_error l n = Some (EUpdate i' d') ->
       (n = 0%nat /\ i' = i /\ d' = f d) \/
       exists m name d0, n = S m /\ nth_error l m = Some (ELoad name) /\ ans (c + m)%nat (ELoad name) = EDoc (Some (i', d0)) /\ d' = f d0) /\
    (forall n name, nth_error l n = Some (ELoad name) ->
       exists m i' d' j, n = S m /\ nth_error l m = Some (EUpdate i' d') /\ ans (c + m)%nat (EUpdate i' d') = EConflict j /\ name = Some j) /\
    (forall n d', nth_error l n <> Some (EPush d')).
Proof.
  assert (Z : forall (q : ereq Id D) n y, nth_error [q] n = Some y -> n = 0%nat /\ y = q).
  { intros q [|n] y E; cbn in E; [injection E as <-; split; reflexivity|]. destruct n; discriminate. }
  induction limit as [|limit IH]; intros i d c l r E.
  - cbn [entry_loop blocking] in E. destruct (ans c (EUpdate i (f d))) as [o|i'|j|] eqn:A; cbn [blocking] in E; injection E as <- <-;
      eexists; exists 0%nat, (EUpdate i (f d)); (split; [reflexivity|]); cbn iota beta; rewrite ?Nat.add_0_r, ?A;
      repeat match goal with |- _ /\ _ => split end; try reflexivity; try (intros; congruence);
      try (intros n i1 d1 F; apply Z in F as (-> & F); injection F as -> ->; left; repeat split; reflexivity);
      try (intros n i1 F; apply Z in F as (_ & F); discriminate); eauto.
    all: intros n d1 F; apply Z in F as (_ & F); discriminate.
  - cbn [entry_loop blocking] in E. destruct (ans c (EUpdate i (f d))) as [o|i'|j|] eqn:A; cbn [blocking] in E.
    1, 2, 4: injection E as <- <-;
      eexists; exists 0%nat, (EUpdate i (f d)); (split; [reflexivity|]); cbn iota beta; rewrite ?Nat.add_0_r, ?A;
      repeat match goal with |- _ /\ _ => split end; try reflexivity; try (intros; congruence);
      try (intros n i1 d1 F; apply Z in F as (-> & F); injection F as -> ->; left; repeat split; reflexivity);
      try (intros n i1 F; apply Z in F as (_ & F); discriminate); eauto;
      intros n d1 F; apply Z in F as (_ & F); discriminate.
    assert (Two : forall x, (l, r) = ([EUpdate i (f d); ELoad (Some j)], Ready x) ->
      (match x with
       | EOk (Some _) => False
       | EOk None => ans (S c) (ELoad (Some j)) = EDoc None
       | EErrConflict _ => False
       | EErr => forall y, ans (S c) (ELoad (Some j)) <> EDoc y
       end) ->
      exists x p q, r = Ready x /\ nth_error l p = Some q /\ length l = S p /\
    (match x with
     | EOk (Some (i', d')) => exists i0, q = EUpdate i0 d' /\ ans (c + p)%nat q = EStored i'
     | EOk None => (exists n, q = ELoad n) /\ ans (c + p)%nat q = EDoc None
     | EErrConflict j => (exists i d, q = EUpdate i d) /\ ans (c + p)%nat q = EConflict j /\ count_if is_update l = S (S limit)
     | EErr => match q with
               | ELoad _ => forall x, ans (c + p)%nat q <> EDoc x
               | EUpdate _ _ => (forall x, ans (c + p)%nat q <> EStored x) /\ (forall x, ans (c + p)%nat q <> EConflict x)
               | EPush _ => False
               end
     end) /\
    (forall n i' d', nth_error l n = Some (EUpdate i' d') ->
       (n = 0%nat /\ i' = i /\ d' = f d) \/
       exists m name d0, n = S m /\ nth_error l m = Some (ELoad name) /\ ans (c + m)%nat (ELoad name) = EDoc (Some (i', d0)) /\ d' = f d0) /\
    (forall n name, nth_error l n = Some (ELoad name) ->
       exists m i' d' j, n = S m /\ nth_error l m = Some (EUpdate i' d') /\ ans (c + m)%nat (EUpdate i' d') = EConflict j /\ name = Some j) /\
    (forall n d', nth_error l n <> Some (EPush d'))).
    { intros x Ex Hx. injection Ex as -> ->. exists x, 1%nat, (ELoad (Some j)). rewrite Nat.add_1_r.
      repeat match goal with |- _ /\ _ => split end; try reflexivity.
      - destruct x as [[[i' d']|]|j'|]; try contradiction; [split; [eexists; reflexivity|exact Hx]|exact Hx].
      - intros [|[|n]] i1 d1 F; cbn in F; [injection F as <- <-; left; repeat split; reflexivity|discriminate|destruct n; discriminate].
      - intros [|[|n]] nm F; cbn in F; [discriminate| |destruct n; discriminate]. injection F as <-.
        exists 0%nat, i, (f d), j. rewrite Nat.add_0_r. repeat split; try reflexivity. exact A.
      - intros [|[|n]] d1 F; cbn in F; [discriminate|discriminate|destruct n; discriminate]. }
    destruct (ans (S c) (ELoad (Some j))) as [[[i1 d1]|]|i1|j1|] eqn:B; cbn [blocking] in E.
    + destruct (blocking ans (entry_loop f i1 d1 limit) (S (S c))) as [l1 r1] eqn:F.
      cbn [entry_loop] in E. injection E as <- <-. destruct (IH _ _ _ _ _ F) as (x & p & q & -> & P1 & P2 & P3 & P4 & P5 & P6).
      exists x, (S (S p)), q. replace (c + S (S p))%nat with (S (S c) + p)%nat by lia.
      repeat match goal with |- _ /\ _ => split end; try reflexivity.
      * exact P1.
      * cbn [length]. rewrite P2. reflexivity.
      * destruct x as [[[i' d']|]|j'|]; try exact P3. unfold count_if in *. cbn [filter is_update length].
        destruct P3 as (Q1 & Q2 & Q3). rewrite Q3. repeat split; assumption.
      * intros [|[|n]] i2 d2 G; cbn [nth_error] in G; [injection G as <- <-; left; repeat split; reflexivity|discriminate|].
        right. destruct (P4 _ _ _ G) as [(-> & -> & ->) | (m & nm & d0 & -> & Q1 & Q2 & Q3)].
        -- exists 1%nat, (Some j), d1. rewrite Nat.add_1_r. repeat split; try reflexivity. exact B.
        -- exists (S (S m)), nm, d0. replace (c + S (S m))%nat with (S (S c) + m)%nat by lia. repeat split; assumption.
      * intros [|[|n]] nm G; cbn [nth_error] in G; [discriminate| |].
        -- injection G as <-. exists 0%nat, i, (f d), j. rewrite Nat.add_0_r. repeat split; try reflexivity. exact A.
        -- destruct (P5 _ _ G) as (m & i2 & d2 & j2 & -> & Q1 & Q2 & Q3). exists (S (S m)), i2, d2, j2.
           replace (c + S (S m))%nat with (S (S c) + m)%nat by lia. repeat split; assumption.
      * intros [|[|n]] d2 G; cbn [nth_error] in G; [discriminate|discriminate|]. exact (P6 _ _ G).
    + injection E as <- <-. apply (Two (EOk None)); [reflexivity|]. reflexivity.
    + injection E as <- <-. apply (Two EErr); [reflexivity|]. intros y. discriminate.
    + injection E as <- <-. apply (Two EErr); [reflexivity|]. intros y. discriminate.
    + injection E as <- <-. apply (Two EErr); [reflexivity|]. intros y. discriminate.
Qed.
Theorem C102_entry_result Id D (ans : nat -> ereq Id D -> eans Id D) o polls l r :
  drive ans entry_body (Options o) polls = (l, Ready r) ->
  (exists k q, nth_error l k = Some q /\ length l = S k /\ entry_said ans o k (count_if is_update l) q r) /\
  nth_error l 0 = Some (ELoad None) /\
  (forall n i d', nth_error l n = Some (EUpdate i d') -> exists m name d f,
     n = S m /\ nth_error l m = Some (ELoad name) /\ ans m (ELoad name) = EDoc (Some (i, d)) /\ e_update o = Some f /\ d' = f d) /\
  (forall n name, nth_error l (S n) = Some (ELoad name) -> exists i d j,
     nth_error l n = Some (EUpdate i d) /\ ans n (EUpdate i d) = EConflict j /\ name = Some j) /\
  (forall n d, nth_error l n = Some (EPush d) -> n = 1%nat /\ ans 0%nat (ELoad None) = EDoc None /\ e_insert o = Some d).
Proof.
  intros E. pose proof (C102_same ans entry_body o polls) as T. rewrite E in T.
  assert (B : blocking ans (entry_body o) 0 = (l, Ready r)).
  { destruct polls as [|n ps]; [discriminate|]. set (m := list_sum (n :: ps)) in *. clearbody m.
    destruct (blocking ans (entry_body o) 0) as [bl br]. cbn [fst snd] in T.
    destruct (Nat.leb_spec (length bl) m) as [L|L]; [|discriminate]. rewrite firstn_all2 in T by lia. symmetry. exact T. }
  clear T E.
  unfold entry_body in B. cbn [blocking] in B.
  assert (One : (l, r) = (l, r) -> l = [ELoad None] -> entry_said ans o 0 0 (ELoad None) r ->
    (exists k q, nth_error l k = Some q /\ length l = S k /\ entry_said ans o k (count_if is_update l) q r) /\
    nth_error l 0 = Some (ELoad None) /\
    (forall n i d', nth_error l n = Some (EUpdate i d') -> exists m name d f,
       n = S m /\ nth_error l m = Some (ELoad name) /\ ans m (ELoad name) = EDoc (Some (i, d)) /\ e_update o = Some f /\ d' = f d) /\
    (forall n name, nth_error l (S n) = Some (ELoad name) -> exists i d j,
       nth_error l n = Some (EUpdate i d) /\ ans n (EUpdate i d) = EConflict j /\ name = Some j) /\
    (forall n d, nth_error l n = Some (EPush d) -> n = 1%nat /\ ans 0%nat (ELoad None) = EDoc None /\ e_insert o = Some d)).
  { intros _ -> Q. repeat match goal with |- _ /\ _ => split end.
    - exists 0%nat, (ELoad None). repeat split. exact Q.
    - reflexivity.
    - intros [|n] i d' F; cbn in F; [discriminate|destruct n; discriminate].
    - intros n nm F; cbn in F; destruct n; discriminate.
    - intros [|n] d F; cbn in F; [discriminate|destruct n; discriminate]. }
  destruct (ans 0%nat (ELoad None)) as [[[i d]|]|i'|j'|] eqn:A; cbn [blocking] in B.
  - destruct (e_update o) as [f|] eqn:U.
    + destruct (blocking ans (entry_loop f i d (e_retry o)) 1) as [l1 r1] eqn:F. injection B as <- ->.
      destruct (entry_loop_said _ _ _ _ _ _ _ _ _ _ F) as (x & p & q & X & P1 & P2 & P3 & P4 & P5 & P6). injection X as <-.
      repeat match goal with |- _ /\ _ => split end; try reflexivity.
      * exists (S p), q. repeat match goal with |- _ /\ _ => split end; [exact P1|cbn [length]; rewrite P2; reflexivity|].
        change (count_if is_update (ELoad None :: l1)) with (count_if is_update l1). unfold entry_said.
        destruct r as [[[i' d']|]|j'|].
        -- right. left. exact P3.
        -- destruct P3 as (Q1 & Q2). repeat split; try assumption. discriminate.
        -- exact P3.
        -- destruct q; [exact P3|exact P3|contradiction].
      * intros [|n] i1 d1 G; cbn [nth_error] in G; [discriminate|].
        destruct (P4 _ _ _ G) as [(-> & -> & ->) | (m & nm & d0 & -> & Q1 & Q2 & Q3)].
        -- exists 0%nat, None, d, f. repeat split. exact A.
        -- exists (S m), nm, d0, f. repeat split; assumption.
      * intros n nm G. cbn [nth_error] in G. destruct (P5 _ _ G) as (m & i2 & d2 & j2 & -> & Q1 & Q2 & Q3). exists i2, d2, j2. repeat split; assumption.
      * intros [|n] d1 G; cbn [nth_error] in G; [discriminate|]. contradiction (P6 _ _ G).
    + cbn [blocking] in B. injection B as <- <-. apply One; try reflexivity. left. rewrite U. repeat split. exact A.
  - destruct (e_insert o) as [d|] eqn:U.
    + cbn [blocking] in B.
      assert (Q : l = [ELoad None; EPush d] /\ entry_said ans o 1 0 (EPush d) r).
      { destruct (ans 1%nat (EPush d)) as [x|i'|j'|] eqn:A1; cbn [blocking] in B; injection B as <- <-; (split; [reflexivity|]);
          unfold entry_said; rewrite ?A1; try (intros; discriminate). right. right. rewrite U. repeat split. }
      destruct Q as (-> & Q). repeat match goal with |- _ /\ _ => split end; try reflexivity.
      * exists 1%nat, (EPush d). repeat split. exact Q.
      * intros [|[|n]] i1 d1 G; cbn in G; [discriminate|discriminate|destruct n; discriminate].
      * intros [|n] nm G; cbn in G; [discriminate|destruct n; discriminate].
      * intros [|[|n]] d1 G; cbn in G; [discriminate| |destruct n; discriminate]. injection G as <-. repeat split.
    + cbn [blocking] in B. injection B as <- <-. apply One; try reflexivity. split; [eexists; reflexivity|]. split; [exact A|]. intros _. exact U.
  - cbn [blocking] in B. injection B as <- <-. apply One; try reflexivity. unfold entry_said. rewrite A. intros; discriminate.
  - cbn [blocking] in B. injection B as <- <-. apply One; try reflexivity. unfold entry_said. rewrite A. intros; discriminate.
  - cbn [blocking] in B. injection B as <- <-. apply One; try reflexivity. unfold entry_said. rewrite A. intros; discriminate.
Qed.

Theorem C102_entry_options Id D (d d' : D) f g n m (o : entry_options D) :
  retry_limit n (or_insert_with d (update_with f o)) = update_with f (retry_limit n (or_insert_with d o)) /\
  or_insert_with d (or_insert_with d' o) = or_insert_with d o /\
  update_with f (update_with g o) = update_with f o /\
  retry_limit n (retry_limit m o) = retry_limit n o /\
  entry_body (Id := Id) (retry_limit n (or_insert_with d (update_with f entry_new))) = entry_body (EOpts (Some d) (Some f) n) /\
  entry_body (Id := Id) (or_insert_with d (update_with f entry_new)) = entry_body (EOpts (Some d) (Some f) 0).
Proof. repeat split. Qed.

(* ---------- concrete cases ---------- *)
(* an entry whose first update conflicts, polled seven times, three of them without progress *)
Example ex_ans (c : nat) (q : ereq nat nat) : eans nat nat :=
  match q with
  | ELoad _ => EDoc (Some (7, c)%nat)
  | EUpdate i _ => if (c =? 1)%nat then EConflict 7%nat else EStored i
  | EPush _ => EStored 1%nat
  end.
Example ex_entry :
  drive ex_ans entry_body (Options (EOpts (Some 5%nat) (Some (fun d => d + 10)%nat) 2)) [0; 1; 0; 2; 0; 0; 1]%nat
  = ([ELoad None; EUpdate 7 10; ELoad (Some 7); EUpdate 7 12]%nat, Ready (EOk (Some (7, 12)%nat))) /\
  drive ex_ans entry_body (Options (EOpts (Some 5%nat) (Some (fun d => d + 10)%nat) 2)) [0; 1; 0]%nat
  = ([ELoad None; EUpdate 7 10]%nat, AsyncBuilders.Pending) /\
  snd (drive ex_ans entry_body (Options (EOpts None (Some (fun d => d + 10)%nat) 0)) [3]%nat) = Ready (EErrConflict 7%nat).
Proof. repeat split. Qed.

(* the hypotheses of the key-value theorems: a store's answers *)
Example ex_ns : option bytes := Some [97%N].
Example ex_store : kst := kv_open PImmediate (Ts 1 0) [].
Example ex_kv :
  drive (fun _ => kv_answer ex_store (Ts 2 0)) get_body (Options (and_delete (GetB ex_ns [1%N] false))) [0; 0; 1]%nat
  = ([(ex_ns, [1%N], CGet true)], Ready (Done None)) /\
  drive (fun _ => kv_answer ex_store (Ts 2 0)) inc_body (Options (IncB ex_ns [1%N] true (NUInt 3) true)) [0; 1]%nat
  = ([(ex_ns, [1%N], CIncr (NUInt 3) true)], Ready (Done (NUInt 3))) /\
  snd (drive (fun _ => kv_answer ex_store (Ts 2 0)) (set_body (Serde (fun b => Some b) (fun b => Some b)))
         (Options (only_if_exists (set_new (Namespaced [97%N]) [1%N] (PSer [5%N])))) [1]%nat)
  = Ready (Done NotChanged).
Proof. vm_compute. repeat split. Qed.

Print Assumptions C102_same.
Print Assumptions C102_once.
Print Assumptions C102_lazy.
Print Assumptions C102_dropped.
Print Assumptions C102_completes.
Print Assumptions C102_no_reuse.
Print Assumptions C102_set.
Print Assumptions C102_get.
Print Assumptions C102_increment.
Print Assumptions C102_list.
Print Assumptions C102_entry.
Print Assumptions C102_entry_result.
Print Assumptions C102_entry_options.
