(* Invariants of the server's request processing: see PropServerQueue.v. *)
From Coq Require Import List NArith Arith Bool Lia.
From Verif Require Import ServerQueue.
Import ListNotations.

(* what concerns one connection *)
Definition jobs (c : N) (l : list (N * req)) : list req :=
  map snd (filter (fun j => N.eqb (fst j) c) l).

Record lview := mkV { vc : conn; vw : list req; vb : list req; vl : list req }.
Definition view (s : server) (c : N) : lview :=
  mkV (conns s c) (jobs c (workq s)) (jobs c (busy s)) (jobs c (lost s)).

Inductive lstep (limit : nat) : lview -> lview -> Prop :=
| L_same : forall v, lstep limit v v
| L_arrive : forall x w b l i se v,
    length (inbox x) < limit ->
    lstep limit (mkV x w b l)
      (mkV (mkConn (arrived x ++ [mkReq (length (arrived x)) i se v]) (inbox x ++ [mkReq (length (arrived x)) i se v])
              (loop x) (permit x) (inproc x) (answering x)
              (subbing x) (notifying x) (outq x) (writing x) (written x) (unwritten x)) w b l)
| L_wait : forall x w b l, loop x = Top -> inproc x = limit ->
    lstep limit (mkV x w b l)
      (mkV (mkConn (arrived x) (inbox x) Waiting (permit x) (inproc x) (answering x)
              (subbing x) (notifying x) (outq x) (writing x) (written x) (unwritten x)) w b l)
| L_reserve : forall x w b l, loop x = Top -> inproc x <> limit ->
    lstep limit (mkV x w b l)
      (mkV (mkConn (arrived x) (inbox x) Reserved (permit x) (inproc x + 1) (answering x)
              (subbing x) (notifying x) (outq x) (writing x) (written x) (unwritten x)) w b l)
| L_wake : forall x w b l, loop x = Waiting -> permit x = true ->
    lstep limit (mkV x w b l)
      (mkV (mkConn (arrived x) (inbox x) Top false (inproc x) (answering x)
              (subbing x) (notifying x) (outq x) (writing x) (written x) (unwritten x)) w b l)
| L_accept : forall x w b l q r, loop x = Reserved -> inbox x = q :: r ->
    lstep limit (mkV x w b l)
      (mkV (mkConn (arrived x) r Top (permit x) (inproc x) (answering x)
              (subbing x) (notifying x) (outq x) (writing x) (written x) (unwritten x)) (w ++ [q]) b l)
| L_dead : forall x w b l q r, loop x = Reserved -> inbox x = q :: r ->
    lstep limit (mkV x w b l)
      (mkV (mkConn (arrived x) r Stopped (permit x) (inproc x) (answering x)
              (subbing x) (notifying x) (outq x) (writing x) (written x) (unwritten x)) w b (l ++ [q]))
| L_start : forall x w b l q, lstep limit (mkV x (q :: w) b l) (mkV x w (b ++ [q]) l)
| L_finish : forall x w b1 b2 l q u v, value q = Some u ->
    lstep limit (mkV x w (b1 ++ q :: b2) l)
      (mkV (mkConn (arrived x) (inbox x) (loop x) (permit x) (inproc x)
              (answering x ++ [mkResp (ser q) (rid q) (rsession q) v])
              (subbing x) (notifying x) (outq x) (writing x) (written x) (unwritten x)) w (b1 ++ b2) l)
| L_crash : forall x w b1 b2 l q,
    lstep limit (mkV x w (b1 ++ q :: b2) l) (mkV x w (b1 ++ b2) (l ++ [q]))
| L_respond : forall x w b l r a1 a2, answering x = a1 ++ r :: a2 ->
    lstep limit (mkV x w b l)
      (mkV (mkConn (arrived x) (inbox x) (loop x) (permit x) (inproc x) (a1 ++ a2)
              (subbing x + 1) (notifying x)
              (if writing x then outq x ++ [r] else outq x) (writing x) (written x)
              (if writing x then unwritten x else unwritten x ++ [r])) w b l)
| L_sub : forall x w b l n, subbing x = S n ->
    lstep limit (mkV x w b l)
      (mkV (mkConn (arrived x) (inbox x) (loop x) (permit x) (inproc x - 1) (answering x)
              n (notifying x + 1) (outq x) (writing x) (written x) (unwritten x)) w b l)
| L_notify : forall x w b l n, notifying x = S n ->
    lstep limit (mkV x w b l)
      (mkV (mkConn (arrived x) (inbox x) (loop x) true (inproc x) (answering x)
              (subbing x) n (outq x) (writing x) (written x) (unwritten x)) w b l)
| L_write : forall x w b l r o, writing x = true -> outq x = r :: o ->
    lstep limit (mkV x w b l)
      (mkV (mkConn (arrived x) (inbox x) (loop x) (permit x) (inproc x) (answering x)
              (subbing x) (notifying x) o true (written x ++ [r]) (unwritten x)) w b l)
| L_stoploop : forall x w b l, loop x = Reserved ->
    lstep limit (mkV x w b l)
      (mkV (mkConn (arrived x) (inbox x) Stopped (permit x) (inproc x) (answering x)
              (subbing x) (notifying x) (outq x) (writing x) (written x) (unwritten x)) w b l)
| L_stopwriter : forall x w b l,
    lstep limit (mkV x w b l)
      (mkV (mkConn (arrived x) (inbox x) (loop x) (permit x) (inproc x) (answering x)
              (subbing x) (notifying x) [] false (written x) (unwritten x ++ outq x)) w b l).

Lemma jobs_app : forall c l m, jobs c (l ++ m) = jobs c l ++ jobs c m.
Proof. intros. unfold jobs. rewrite filter_app, map_app. reflexivity. Qed.

Lemma jobs_one : forall c d q, jobs c [(d, q)] = if N.eqb d c then [q] else [].
Proof. intros. unfold jobs. cbn [filter fst]. destruct (N.eqb d c); reflexivity. Qed.

Lemma jobs_cons : forall c d q l, jobs c ((d, q) :: l) = (if N.eqb d c then [q] else []) ++ jobs c l.
Proof. intros. change ((d, q) :: l) with ([(d, q)] ++ l). rewrite jobs_app, jobs_one. reflexivity. Qed.

Lemma remove_nth_split : forall A k (l : list A) x, nth_error l k = Some x ->
  exists l1 l2, l = l1 ++ x :: l2 /\ remove_nth k l = l1 ++ l2.
Proof.
  induction k as [|k IH]; intros [|y l] x H; cbn in H; try discriminate.
  - inversion H; subst. exists [], l. auto.
  - destruct (IH l x H) as (l1 & l2 & E & R). exists (y :: l1), l2. cbn. rewrite R, E. auto.
Qed.

Lemma upd_same : forall f c x, upd f c x c = x.
Proof. intros. unfold upd. rewrite N.eqb_refl. reflexivity. Qed.
Lemma upd_other : forall f c x d, d <> c -> upd f c x d = f d.
Proof. intros. unfold upd. apply N.eqb_neq in H. rewrite H. reflexivity. Qed.

Lemma setc_same : forall s c, view (setc s c (conns s c)) c = view s c.
Proof. intros. unfold view. cbn. rewrite upd_same. reflexivity. Qed.

Lemma view_setc_other : forall s c x d, d <> c -> view (setc s c x) d = view s d.
Proof. intros. unfold view. cbn [conns setc workq busy lost]. rewrite upd_other by assumption. reflexivity. Qed.
Lemma view_setc : forall s c x, view (setc s c x) c = mkV x (jobs c (workq s)) (jobs c (busy s)) (jobs c (lost s)).
Proof. intros. unfold view. cbn [conns setc workq busy lost]. rewrite upd_same. reflexivity. Qed.

Lemma view_step : forall limit tr s ev d, lstep limit (view s d) (view (step limit tr s ev) d).
Proof.
  intros limit tr s ev d.
  destruct ev as [c i se v|c|c|c| |k v|k|c k|c|c|c| |c|c]; cbn [step].
  - destruct (length (inbox (conns s c)) <? limit) eqn:E; [|apply L_same]. apply Nat.ltb_lt in E.
    destruct (N.eq_dec d c) as [->|N]; [|rewrite view_setc_other by assumption; apply L_same].
    rewrite view_setc. apply L_arrive. exact E.
  - destruct (N.eq_dec d c) as [->|N].
    + destruct (loop (conns s c)) eqn:L; try apply L_same.
      destruct (inproc (conns s c) =? limit) eqn:E; rewrite view_setc.
      * apply Nat.eqb_eq in E. apply L_wait; assumption.
      * apply Nat.eqb_neq in E. apply L_reserve; assumption.
    + destruct (loop (conns s c)); try apply L_same. destruct (inproc (conns s c) =? limit);
      rewrite view_setc_other by assumption; apply L_same.
  - destruct (N.eq_dec d c) as [->|N].
    + destruct (loop (conns s c)) eqn:L; try apply L_same.
      destruct (permit (conns s c)) eqn:P; [|apply L_same]. rewrite view_setc. apply L_wake; assumption.
    + destruct (loop (conns s c)); try apply L_same. destruct (permit (conns s c)); [|apply L_same].
      rewrite view_setc_other by assumption; apply L_same.
  - destruct (loop (conns s c)) eqn:L; try apply L_same.
    destruct (inbox (conns s c)) as [|q r] eqn:B; [apply L_same|].
    destruct (live s =? 0); unfold view; cbn [conns setc workq busy lost live graceful].
    + rewrite jobs_app, jobs_one. destruct (N.eq_dec d c) as [->|N].
      * rewrite upd_same, N.eqb_refl. apply L_dead; assumption.
      * rewrite upd_other by assumption. assert (N' : c <> d) by congruence. apply N.eqb_neq in N'. rewrite N'.
        rewrite app_nil_r. apply L_same.
    + rewrite jobs_app, jobs_one. destruct (N.eq_dec d c) as [->|N].
      * rewrite upd_same, N.eqb_refl. apply L_accept; assumption.
      * rewrite upd_other by assumption. assert (N' : c <> d) by congruence. apply N.eqb_neq in N'. rewrite N'.
        rewrite app_nil_r. apply L_same.
  - destruct (workq s) as [|[c q] r] eqn:W; [apply L_same|]. destruct (length (busy s) <? live s); [|apply L_same].
    unfold view. cbn [conns workq busy lost]. rewrite W, jobs_app, jobs_one, jobs_cons.
    destruct (N.eqb c d); cbn [app]; [apply L_start|rewrite app_nil_r; apply L_same].
  - destruct (nth_error (busy s) k) as [[c q]|] eqn:K; [|apply L_same].
    destruct (value q) as [u|] eqn:V; [|apply L_same].
    destruct (remove_nth_split _ _ _ _ K) as (b1 & b2 & B & R).
    unfold view. cbn [conns setc workq busy lost live graceful]. rewrite R, B, !jobs_app, jobs_cons.
    destruct (N.eq_dec d c) as [->|N].
    + rewrite upd_same, N.eqb_refl. cbn [app]. eapply L_finish. exact V.
    + rewrite upd_other by assumption. assert (N' : c <> d) by congruence. apply N.eqb_neq in N'. rewrite N'.
      cbn [app]. apply L_same.
  - destruct (nth_error (busy s) k) as [[c q]|] eqn:K; [|apply L_same].
    destruct (remove_nth_split _ _ _ _ K) as (b1 & b2 & B & R).
    unfold view. cbn [conns workq busy lost]. rewrite R, B, !jobs_app, jobs_cons, jobs_one.
    destruct (N.eqb c d); cbn [app]; [apply L_crash|rewrite app_nil_r; apply L_same].
  - destruct (nth_error (answering (conns s c)) k) as [r|] eqn:K; [|apply L_same].
    destruct (remove_nth_split _ _ _ _ K) as (b1 & b2 & B & R). rewrite R.
    destruct (N.eq_dec d c) as [->|N]; [|rewrite view_setc_other by assumption; apply L_same].
    rewrite view_setc. apply L_respond. exact B.
  - destruct (subbing (conns s c)) as [|n] eqn:E; [apply L_same|].
    destruct (N.eq_dec d c) as [->|N]; [|rewrite view_setc_other by assumption; apply L_same].
    rewrite view_setc. apply L_sub. exact E.
  - destruct (notifying (conns s c)) as [|n] eqn:E; [apply L_same|].
    destruct (N.eq_dec d c) as [->|N]; [|rewrite view_setc_other by assumption; apply L_same].
    rewrite view_setc. eapply L_notify. exact E.
  - destruct (writing (conns s c)) eqn:W; [|apply L_same]. destruct (outq (conns s c)) as [|r o] eqn:O; [apply L_same|].
    destruct (N.eq_dec d c) as [->|N]; [|rewrite view_setc_other by assumption; apply L_same].
    rewrite view_setc. apply L_write; assumption.
  - unfold view. cbn [conns workq busy lost]. apply L_same.
  - destruct (graceful s); [|apply L_same]. destruct (loop (conns s c)) eqn:L; try apply L_same.
    destruct (N.eq_dec d c) as [->|N]; [|rewrite view_setc_other by assumption; apply L_same].
    rewrite view_setc. apply L_stoploop; assumption.
  - destruct (graceful s); [|apply L_same]. destruct (tr c); [|apply L_same].
    destruct (writing (conns s c)); [|apply L_same].
    destruct (N.eq_dec d c) as [->|N]; [|rewrite view_setc_other by assumption; apply L_same].
    rewrite view_setc. apply L_stopwriter.
Qed.

(* ---- local invariants ---- *)
Definition load (v : lview) : nat :=
  length (vw v) + length (vb v) + length (answering (vc v)) + subbing (vc v) + length (vl v).

Definition counted (limit : nat) (v : lview) : Prop :=
  inproc (vc v) <= limit /\
  match loop (vc v) with
  | Reserved => inproc (vc v) = load v + 1
  | Stopped => load v <= inproc (vc v)
  | _ => inproc (vc v) = load v
  end.

Lemma counted_step : forall limit v v', counted limit v -> lstep limit v v' -> counted limit v'.
Proof.
  intros limit v v' C H. destruct H; unfold counted, load in *;
  cbn [vc vw vb vl arrived inbox loop permit inproc answering subbing notifying] in *;
  repeat rewrite ?app_length in *; cbn [length] in *; try exact C.
  - destruct C as [C D]. rewrite H in D. split; assumption.
  - destruct C as [C D]. rewrite H in D. split; lia.
  - destruct C as [C D]. rewrite H in D. split; assumption.
  - destruct C as [C D]. rewrite H in D. split; lia.
  - destruct C as [C D]. rewrite H in D. split; lia.
  - destruct C as [C D]. split; [exact C|]. destruct (loop x); lia.
  - destruct C as [C D]. split; [exact C|]. destruct (loop x); lia.
  - destruct C as [C D]. split; [exact C|]. destruct (loop x); lia.
  - destruct C as [C D]. rewrite H, app_length in D. cbn [length] in D. split; [exact C|].
    destruct (loop x); lia.
  - destruct C as [C D]. rewrite H in D. split; [lia|]. destruct (loop x); lia.
  - destruct C as [C D]. rewrite H in D. split; [exact C|]. lia.
Qed.

Definition sers (v : lview) : list nat :=
  map ser (inbox (vc v)) ++ map ser (vw v) ++ map ser (vb v) ++ map answers (answering (vc v)) ++
  map answers (outq (vc v)) ++ map answers (written (vc v)) ++ map answers (unwritten (vc v)) ++ map ser (vl v).

Definition occ (n : nat) (l : list nat) : nat := count_occ Nat.eq_dec l n.
Lemma occ_app : forall n l m, occ n (l ++ m) = occ n l + occ n m.
Proof. intros. apply count_occ_app. Qed.
Lemma occ_cons : forall n a l, occ n (a :: l) = occ n [a] + occ n l.
Proof. intros. change (a :: l) with ([a] ++ l). apply occ_app. Qed.
Lemma occ_nil : forall n, occ n [] = 0.
Proof. reflexivity. Qed.

Definition unique (v : lview) : Prop :=
  forall n, occ n (sers v) = if n <? length (arrived (vc v)) then 1 else 0.

Lemma unique_step : forall limit v v', unique v -> lstep limit v v' -> unique v'.
Proof.
  intros limit v v' U H n. specialize (U n). destruct H; unfold sers in *;
  cbn [vc vw vb vl arrived inbox outq written unwritten answering] in *;
  repeat rewrite ?map_app, ?occ_app in *; cbn [map ser answers] in *; try exact U.
  - rewrite app_length. cbn [length]. unfold occ at 2. cbn [count_occ].
    destruct (n <? length (arrived x)) eqn:E; [apply Nat.ltb_lt in E|apply Nat.ltb_ge in E];
    destruct (n <? length (arrived x) + 1) eqn:F; [apply Nat.ltb_lt in F|apply Nat.ltb_ge in F|apply Nat.ltb_lt in F|apply Nat.ltb_ge in F];
    destruct (Nat.eq_dec (length (arrived x)) n); lia.
  - rewrite H0 in U. cbn [map] in U. rewrite (occ_cons n (ser q) (map ser r)) in U. lia.
  - rewrite H0 in U. cbn [map] in U. rewrite (occ_cons n (ser q) (map ser r)) in U. lia.
  - rewrite (occ_cons n (ser q) (map ser w)) in U. lia.
  - rewrite (occ_cons n (ser q) (map ser b2)) in U. lia.
  - rewrite (occ_cons n (ser q) (map ser b2)) in U. lia.
  - rewrite H, map_app in U. cbn [map] in U. rewrite occ_app, (occ_cons n (answers r) (map answers a2)) in U.
    destruct (writing x); rewrite ?map_app, ?occ_app; cbn [map]; lia.
  - rewrite H0 in U. cbn [map] in U. rewrite (occ_cons n (answers r) (map answers o)) in U. lia.
  - rewrite occ_nil. lia.
Qed.

Definition genuine (a : list req) (q : req) : Prop := nth_error a (ser q) = Some q.
Definition true_answer (a : list req) (r : resp) : Prop :=
  exists q, nth_error a (answers r) = Some q /\ pid r = rid q /\ psession r = rsession q /\ value q <> None.

Definition matched (v : lview) : Prop :=
  let a := arrived (vc v) in
  Forall (genuine a) (inbox (vc v)) /\ Forall (genuine a) (vw v) /\ Forall (genuine a) (vb v) /\
  Forall (genuine a) (vl v) /\ Forall (true_answer a) (answering (vc v)) /\
  Forall (true_answer a) (outq (vc v)) /\ Forall (true_answer a) (written (vc v)) /\
  Forall (true_answer a) (unwritten (vc v)).

Lemma genuine_more : forall a b q, genuine a q -> genuine (a ++ b) q.
Proof.
  unfold genuine. intros a b q H. rewrite nth_error_app1; [exact H|].
  apply nth_error_Some. congruence.
Qed.
Lemma true_answer_more : forall a b r, true_answer a r -> true_answer (a ++ b) r.
Proof.
  intros a b r (q & H & I). exists q. split; [|exact I]. rewrite nth_error_app1; [exact H|].
  apply nth_error_Some. congruence.
Qed.

Lemma Forall_mid : forall A (P : A -> Prop) l1 x l2, Forall P (l1 ++ x :: l2) -> P x /\ Forall P (l1 ++ l2).
Proof.
  intros A P l1 x l2 H. apply Forall_app in H. destruct H as [H1 H2]. inversion H2; subst.
  split; [assumption|]. apply Forall_app. auto.
Qed.

Lemma matched_step : forall limit v v', matched v -> lstep limit v v' -> matched v'.
Proof.
  intros limit v v' M H. unfold matched in *. destruct H;
  cbn [vc vw vb vl arrived inbox outq written unwritten answering] in *; try exact M;
  destruct M as (M1 & M2 & M3 & M4 & M5 & M6 & M7 & M8).
  - set (q := mkReq (length (arrived x)) i se v).
    assert (G : genuine (arrived x ++ [q]) q).
    { unfold genuine. cbn [q ser]. rewrite nth_error_app2 by lia. rewrite Nat.sub_diag. reflexivity. }
    assert (FG : forall l, Forall (genuine (arrived x)) l -> Forall (genuine (arrived x ++ [q])) l)
      by (intros ? F; eapply Forall_impl; [|exact F]; intros; now apply genuine_more).
    assert (FT : forall l, Forall (true_answer (arrived x)) l -> Forall (true_answer (arrived x ++ [q])) l)
      by (intros ? F; eapply Forall_impl; [|exact F]; intros; now apply true_answer_more).
    split; [apply Forall_app; split; [apply FG; assumption|constructor; [exact G|constructor]]|].
    repeat (split; [auto|]). auto.
  - rewrite H0 in M1. inversion M1; subst. repeat (split; auto). apply Forall_app; auto.
  - rewrite H0 in M1. inversion M1; subst. repeat (split; auto). apply Forall_app; auto.
  - inversion M2; subst. repeat (split; auto). apply Forall_app; auto.
  - apply Forall_mid in M3. destruct M3 as [G M3]. repeat (split; auto). apply Forall_app; split; [assumption|].
    constructor; [|constructor]. exists q. cbn [answers pid psession]. repeat split; auto. congruence.
  - apply Forall_mid in M3. destruct M3 as [G M3]. repeat (split; auto). apply Forall_app; auto.
  - rewrite H in M5. apply Forall_mid in M5. destruct M5 as [G M5].
    repeat (split; auto); destruct (writing x); auto; apply Forall_app; auto.
  - rewrite H0 in M6. inversion M6; subst. repeat (split; auto). apply Forall_app; auto.
  - repeat (split; auto). apply Forall_app; auto.
Qed.

Definition wakes (limit : nat) (v : lview) : Prop :=
  loop (vc v) = Waiting -> permit (vc v) = true \/ 0 < notifying (vc v) \/ inproc (vc v) = limit.

Lemma wakes_step : forall limit v v', wakes limit v -> lstep limit v v' -> wakes limit v'.
Proof.
  intros limit v v' W H. unfold wakes in *. destruct H; cbn [vc loop permit notifying inproc] in *; try exact W; try discriminate.
  - intros _. auto.
  - intros _. right. left. lia.
  - intros _. left. reflexivity.
Qed.

Lemma run_app : forall limit tr h1 h2 s, run limit tr s (h1 ++ h2) = run limit tr (run limit tr s h1) h2.
Proof. induction h1; cbn [run app]; intros; auto. Qed.

Lemma run_local : forall limit tr (P : lview -> Prop),
  (forall v v', P v -> lstep limit v v' -> P v') ->
  forall h s d, P (view s d) -> P (view (run limit tr s h) d).
Proof.
  intros limit tr P HS. induction h as [|ev h IH]; cbn [run]; intros s d H; [exact H|].
  apply IH. eapply HS; [exact H|apply view_step].
Qed.

Lemma counted_run : forall limit tr w h d, counted limit (view (run limit tr (open w) h) d).
Proof.
  intros. apply run_local; [intros; eapply counted_step; eassumption|].
  unfold counted, load. cbn. split; lia.
Qed.
Lemma unique_run : forall limit tr w h d, unique (view (run limit tr (open w) h) d).
Proof.
  intros. apply (run_local limit tr); [intros; eapply unique_step; eassumption|].
  intros n. cbn. reflexivity.
Qed.
Lemma matched_run : forall limit tr w h d, matched (view (run limit tr (open w) h) d).
Proof.
  intros. apply (run_local limit tr); [intros; eapply matched_step; eassumption|].
  unfold matched. cbn. repeat (split; auto).
Qed.
Lemma wakes_run : forall limit tr w h d, wakes limit (view (run limit tr (open w) h) d).
Proof.
  intros. apply run_local; [intros; eapply wakes_step; eassumption|]. unfold wakes. cbn. discriminate.
Qed.

(* ---- global invariants ---- *)
Definition staffed (workers : nat) (s : server) : Prop :=
  length (busy s) <= live s /\ live s <= workers /\ workers <= live s + length (lost s) /\
  (forall c, loop (conns s c) = Stopped -> graceful s = true \/ live s = 0) /\
  (forall c, writing (conns s c) = false -> graceful s = true).

Lemma remove_nth_length : forall A k (l : list A) x, nth_error l k = Some x ->
  length l = S (length (remove_nth k l)).
Proof.
  intros A k l x H. destruct (remove_nth_split _ _ _ _ H) as (l1 & l2 & E & R).
  rewrite R. subst. rewrite !app_length. cbn [length]. lia.
Qed.

Ltac staff_conn X4 X5 c :=
  split; [intros d; unfold setc, upd; cbn [conns]; destruct (N.eqb d c) eqn:Ed; cbn [loop]; auto; intros; try discriminate; try (apply (X4 c); assumption); try (apply (X4 d); assumption)
         |intros d; unfold setc, upd; cbn [conns]; destruct (N.eqb d c) eqn:Ed; cbn [writing]; auto; intros; try discriminate; try (apply (X5 c); assumption); try (apply (X5 d); assumption)].

Lemma staffed_step : forall workers limit tr s ev, staffed workers s -> staffed workers (step limit tr s ev).
Proof.
  intros workers limit tr s ev S0. pose proof S0 as (X1 & X2 & X3 & X4 & X5).
  destruct ev as [c i se v|c|c|c| |k v|k|c k|c|c|c| |c|c]; cbn [step].
  - destruct (length (inbox (conns s c)) <? limit); [|exact S0].
    unfold staffed; cbn [busy live lost graceful setc]. repeat (split; [assumption|]). staff_conn X4 X5 c.
  - destruct (loop (conns s c)) eqn:L; try exact S0.
    destruct (inproc (conns s c) =? limit);
    unfold staffed; cbn [busy live lost graceful setc]; repeat (split; [assumption|]); staff_conn X4 X5 c.
  - destruct (loop (conns s c)) eqn:L; try exact S0. destruct (permit (conns s c)); [|exact S0].
    unfold staffed; cbn [busy live lost graceful setc]; repeat (split; [assumption|]); staff_conn X4 X5 c.
  - destruct (loop (conns s c)) eqn:L; try exact S0. destruct (inbox (conns s c)) as [|q r]; [exact S0|].
    destruct (live s =? 0) eqn:Z; unfold staffed; cbn [busy live lost graceful setc conns].
    + apply Nat.eqb_eq in Z. rewrite app_length. cbn [length].
      split; [assumption|split; [assumption|split; [lia|]]]. staff_conn X4 X5 c.
    + repeat (split; [assumption|]). staff_conn X4 X5 c.
  - destruct (workq s) as [|j r]; [exact S0|]. destruct (length (busy s) <? live s) eqn:B; [|exact S0].
    apply Nat.ltb_lt in B. unfold staffed; cbn [busy live lost graceful conns]. rewrite app_length. cbn [length].
    split; [lia|]. repeat (split; [assumption|]). assumption.
  - destruct (nth_error (busy s) k) as [[c q]|] eqn:K; [|exact S0]. destruct (value q); [|exact S0].
    pose proof (remove_nth_length _ _ _ _ K) as RL.
    unfold staffed; cbn [busy live lost graceful setc conns]. split; [lia|]. repeat (split; [assumption|]).
    staff_conn X4 X5 c.
  - destruct (nth_error (busy s) k) as [j|] eqn:K; [|exact S0].
    pose proof (remove_nth_length _ _ _ _ K) as RL.
    unfold staffed; cbn [busy live lost graceful conns]. rewrite app_length. cbn [length].
    split; [lia|]. split; [lia|]. split; [lia|]. split; [|assumption].
    intros c H. destruct (X4 c H); [left; assumption|right; lia].
  - destruct (nth_error (answering (conns s c)) k) as [r|]; [|exact S0].
    unfold staffed; cbn [busy live lost graceful setc]; repeat (split; [assumption|]); staff_conn X4 X5 c.
  - destruct (subbing (conns s c)); [exact S0|].
    unfold staffed; cbn [busy live lost graceful setc]; repeat (split; [assumption|]); staff_conn X4 X5 c.
  - destruct (notifying (conns s c)); [exact S0|].
    unfold staffed; cbn [busy live lost graceful setc]; repeat (split; [assumption|]); staff_conn X4 X5 c.
  - destruct (writing (conns s c)) eqn:W; [|exact S0]. destruct (outq (conns s c)); [exact S0|].
    unfold staffed; cbn [busy live lost graceful setc]; repeat (split; [assumption|]); staff_conn X4 X5 c.
  - unfold staffed; cbn [busy live lost graceful conns]; repeat (split; [assumption|]). split; auto.
  - destruct (graceful s) eqn:G; [|exact S0]. destruct (loop (conns s c)) eqn:L; try exact S0.
    unfold staffed; cbn [busy live lost graceful setc]; repeat (split; [assumption|]); rewrite G; split; auto.
  - destruct (graceful s) eqn:G; [|exact S0]. destruct (tr c); [|exact S0]. destruct (writing (conns s c)); [|exact S0].
    unfold staffed; cbn [busy live lost graceful setc]; repeat (split; [assumption|]); rewrite G; split; auto.
Qed.

Lemma staffed_run : forall workers limit tr h, staffed workers (run limit tr (open workers) h).
Proof.
  intros workers limit tr h. assert (G : forall l s, staffed workers s -> staffed workers (run limit tr s l)).
  { induction l; cbn [run]; intros; auto using staffed_step. }
  apply G. unfold staffed. cbn. repeat split; try lia; discriminate.
Qed.

(* responses are only dropped by a QUIC connection's writer during a graceful shutdown *)
Definition kept (tr : N -> transport) (s : server) : Prop :=
  forall c, (writing (conns s c) = true /\ unwritten (conns s c) = []) \/ (graceful s = true /\ tr c = Quic).

Lemma kept_conns : forall tr s (f : N -> conn) wq b lv ls,
  kept tr s ->
  (forall d, f d = conns s d \/ (writing (f d) = writing (conns s d) /\ unwritten (f d) = unwritten (conns s d))) ->
  kept tr (mkS f wq b lv ls (graceful s)).
Proof.
  intros tr s f wq b lv ls K H d. cbn [conns graceful].
  destruct (H d) as [E|[E1 E2]]; [rewrite E|rewrite E1, E2]; apply K.
Qed.

Lemma upd_cases : forall f c x d, (d = c /\ upd f c x d = x) \/ upd f c x d = f d.
Proof.
  intros f c x d. destruct (N.eq_dec d c) as [->|E]; [left; rewrite upd_same; auto|right; apply upd_other; assumption].
Qed.

Ltac kept_local K c := unfold setc; apply kept_conns; [exact K|];
  let d := fresh "d" in intros d;
  match goal with |- context [upd ?f c ?x d] => destruct (upd_cases f c x d) as [[-> ->] | ->] end;
  [right; cbn [writing unwritten]; auto|left; reflexivity].

Lemma kept_step : forall limit tr s ev, kept tr s -> kept tr (step limit tr s ev).
Proof.
  intros limit tr s ev K.
  destruct ev as [c i se v|c|c|c| |k v|k|c k|c|c|c| |c|c]; cbn [step].
  - destruct (_ <? _); [kept_local K c|exact K].
  - destruct (loop (conns s c)); try exact K. destruct (_ =? _); kept_local K c.
  - destruct (loop (conns s c)); try exact K. destruct (permit (conns s c)); [kept_local K c|exact K].
  - destruct (loop (conns s c)); try exact K. destruct (inbox (conns s c)); [exact K|].
    destruct (_ =? _); cbn [setc conns workq busy live lost graceful]; kept_local K c.
  - destruct (workq s); [exact K|]. destruct (_ <? _); [|exact K]. apply kept_conns; [exact K|auto].
  - destruct (nth_error (busy s) k) as [[c q]|]; [|exact K]. destruct (value q); [|exact K].
    cbn [setc conns workq busy live lost graceful]. kept_local K c.
  - destruct (nth_error (busy s) k); [|exact K]. apply kept_conns; [exact K|auto].
  - destruct (nth_error (answering (conns s c)) k) as [r|]; [|exact K].
    intros d. cbn [setc conns graceful]. match goal with |- context [upd ?f c ?x d] => destruct (upd_cases f c x d) as [[-> ->] | ->] end; [|apply K].
    cbn [writing unwritten]. destruct (K c) as [[A B]|B]; [left; rewrite A; auto|right; exact B].
  - destruct (subbing (conns s c)); [exact K|kept_local K c].
  - destruct (notifying (conns s c)); [exact K|kept_local K c].
  - destruct (writing (conns s c)) eqn:W; [|exact K]. destruct (outq (conns s c)); [exact K|].
    intros d. cbn [setc conns graceful]. match goal with |- context [upd ?f c ?x d] => destruct (upd_cases f c x d) as [[-> ->] | ->] end; [|apply K].
    cbn [writing unwritten]. destruct (K c) as [[A B]|B]; [left; auto|right; exact B].
  - intros d. cbn [conns graceful]. destruct (K d) as [B|[_ B]]; [left; exact B|right; auto].
  - destruct (graceful s) eqn:G; [|exact K]. destruct (loop (conns s c)); try exact K. kept_local K c.
  - destruct (graceful s) eqn:G; [|exact K]. destruct (tr c) eqn:T; [|exact K]. destruct (writing (conns s c)); [|exact K].
    intros d. cbn [setc conns graceful]. match goal with |- context [upd ?f c ?x d] => destruct (upd_cases f c x d) as [[-> ->] | ->] end; [|apply K].
    right. auto.
Qed.

Lemma kept_run : forall limit tr w h, kept tr (run limit tr (open w) h).
Proof.
  intros limit tr w h. assert (G : forall l s, kept tr s -> kept tr (run limit tr s l)).
  { induction l; cbn [run]; intros; auto using kept_step. }
  apply G. intros c. left. cbn. auto.
Qed.

(* the requests that ever arrived *)
Definition arrival (ev : event) : bool := match ev with Arrive _ _ _ _ => true | _ => false end.

Definition progress (ev : event) : bool :=
  match ev with
  | Look _ | Wake _ | Accept _ | Start | Finish _ _ | Respond _ _ | Sub _ | Notify _ | Write _ => true
  | _ => false
  end.

Definition concerns (cs : list N) (ev : event) : Prop :=
  match ev with
  | Look c | Wake c | Accept c | Respond c _ | Sub c | Notify c | Write c => In c cs
  | _ => True
  end.

Lemma quiescent : forall limit tr workers h cs,
  let s := run limit tr (open workers) h in
  0 < limit -> 0 < workers -> graceful s = false -> lost s = [] ->
  (forall c q, In q (arrived (conns s c)) -> value q <> None) ->
  (forall ev, progress ev = true -> concerns cs ev -> step limit tr s ev = s) ->
  busy s = [] /\ workq s = [] /\
  forall c, In c cs -> inbox (conns s c) = [] /\ answering (conns s c) = [] /\ outq (conns s c) = [] /\ unwritten (conns s c) = [].
Proof.
  intros limit tr workers h cs s HL HW HG HLost HV HP.
  destruct (staffed_run workers limit tr h) as (X1 & X2 & X3 & X4 & X5). fold s in X1, X2, X3, X4, X5.
  rewrite HLost in X3. cbn [length] in X3.
  assert (LV : live s = workers) by lia.
  assert (B : busy s = []).
  { destruct (busy s) as [|[c q] b] eqn:E; [reflexivity|exfalso].
    assert (V : value q <> None).
    { destruct (matched_run limit tr workers h c) as (_ & _ & M & _). fold s in M. unfold view in M. cbn [vb vc] in M.
      rewrite E, jobs_cons, N.eqb_refl in M. cbn [app] in M. apply Forall_inv in M. unfold genuine in M.
      apply (HV c). eapply nth_error_In. eassumption. }
    specialize (HP (Finish 0 0) eq_refl I). cbn [step] in HP. rewrite E in HP. cbn [nth_error] in HP.
    destruct (value q); [|congruence]. apply (f_equal busy) in HP. cbn [busy remove_nth] in HP. rewrite E in HP.
    apply (f_equal (@length _)) in HP. cbn [length] in HP. lia. }
  assert (W : workq s = []).
  { destruct (workq s) as [|j r] eqn:E; [reflexivity|exfalso].
    specialize (HP Start eq_refl I). cbn [step] in HP. rewrite E, B in HP. cbn [length] in HP.
    replace (0 <? live s) with true in HP by (symmetry; apply Nat.ltb_lt; lia).
    apply (f_equal busy) in HP. cbn [busy] in HP. rewrite B in HP. discriminate. }
  split; [exact B|split; [exact W|]]. intros c Hc.
  assert (WR : writing (conns s c) = true).
  { destruct (writing (conns s c)) eqn:E; [reflexivity|]. specialize (X5 c E). congruence. }
  assert (A : answering (conns s c) = []).
  { destruct (answering (conns s c)) as [|r a] eqn:E; [reflexivity|exfalso].
    specialize (HP (Respond c 0) eq_refl Hc). cbn [step] in HP. rewrite E in HP. cbn [nth_error] in HP.
    apply (f_equal (fun z => answering (conns z c))) in HP. cbn [conns setc] in HP. rewrite upd_same in HP.
    cbn [answering remove_nth] in HP. rewrite E in HP. apply (f_equal (@length _)) in HP. cbn [length] in HP. lia. }
  assert (SB : subbing (conns s c) = 0).
  { destruct (subbing (conns s c)) as [|n] eqn:E; [reflexivity|exfalso].
    specialize (HP (Sub c) eq_refl Hc). cbn [step] in HP. rewrite E in HP.
    apply (f_equal (fun z => subbing (conns z c))) in HP. cbn [conns setc] in HP. rewrite upd_same in HP.
    cbn [subbing] in HP. rewrite E in HP. lia. }
  assert (NT : notifying (conns s c) = 0).
  { destruct (notifying (conns s c)) as [|n] eqn:E; [reflexivity|exfalso].
    specialize (HP (Notify c) eq_refl Hc). cbn [step] in HP. rewrite E in HP.
    apply (f_equal (fun z => notifying (conns z c))) in HP. cbn [conns setc] in HP. rewrite upd_same in HP.
    cbn [notifying] in HP. rewrite E in HP. lia. }
  assert (O : outq (conns s c) = []).
  { destruct (outq (conns s c)) as [|r o] eqn:E; [reflexivity|exfalso].
    specialize (HP (Write c) eq_refl Hc). cbn [step] in HP. rewrite WR, E in HP.
    apply (f_equal (fun z => outq (conns z c))) in HP. cbn [conns setc] in HP. rewrite upd_same in HP.
    cbn [outq] in HP. rewrite E in HP. apply (f_equal (@length _)) in HP. cbn [length] in HP. lia. }
  assert (U : unwritten (conns s c) = []).
  { destruct (kept_run limit tr workers h c) as [[_ K]|[K _]]; fold s in K; [exact K|congruence]. }
  repeat split; try assumption.
  destruct (counted_run limit tr workers h c) as [C1 C2]. fold s in C1, C2.
  unfold load, view in C1, C2. cbn [vc vw vb vl] in C1, C2. rewrite B, W, A, SB, HLost in C2. cbn [length jobs filter map] in C2.
  pose proof (wakes_run limit tr workers h c) as WK. fold s in WK. unfold wakes, view in WK. cbn [vc] in WK.
  destruct (loop (conns s c)) eqn:L.
  - exfalso. pose proof (HP (Look c) eq_refl Hc) as H. cbn [step] in H. rewrite L in H.
    destruct (inproc (conns s c) =? limit);
    apply (f_equal (fun z => loop (conns z c))) in H; cbn [conns setc] in H; rewrite upd_same in H;
    cbn [loop] in H; congruence.
  - exfalso. destruct (WK eq_refl) as [P|[P|P]]; try lia.
    pose proof (HP (Wake c) eq_refl Hc) as H. cbn [step] in H. rewrite L, P in H.
    apply (f_equal (fun z => loop (conns z c))) in H; cbn [conns setc] in H; rewrite upd_same in H;
    cbn [loop] in H; congruence.
  - destruct (inbox (conns s c)) as [|q r] eqn:E; [reflexivity|exfalso].
    pose proof (HP (Accept c) eq_refl Hc) as H. cbn [step] in H. rewrite L, E in H.
    destruct (live s =? 0); apply (f_equal (fun z => loop (conns z c))) in H; cbn [conns setc] in H; rewrite upd_same in H;
    cbn [loop] in H; congruence.
  - exfalso. destruct (X4 c L); [congruence|lia].
Qed.

(* ---- the amount of work left ---- *)
Definition mconn (x : conn) : nat :=
  10 * length (inbox x) + (match loop x with Top => 1 | _ => 0 end) + (if permit x then 2 else 0) +
  6 * length (answering x) + 4 * subbing x + 3 * notifying x + length (outq x).

Fixpoint msum (f : N -> conn) (cs : list N) : nat :=
  match cs with [] => 0 | c :: r => mconn (f c) + msum f r end.

Definition work (cs : list N) (s : server) : nat :=
  8 * length (workq s) + 7 * length (busy s) + msum (conns s) cs.

Lemma msum_other : forall f c x cs, ~ In c cs -> msum (upd f c x) cs = msum f cs.
Proof.
  induction cs as [|d cs IH]; cbn [msum In]; intros H; [reflexivity|].
  rewrite upd_other by intuition congruence. rewrite IH; intuition.
Qed.

Lemma msum_upd : forall f c x cs, NoDup cs -> In c cs ->
  msum (upd f c x) cs + mconn (f c) = msum f cs + mconn x.
Proof.
  induction cs as [|d cs IH]; cbn [msum In]; intros D H; [destruct H|].
  inversion D as [|? ? D1 D2]; subst. destruct H as [->|H].
  - rewrite upd_same, msum_other by assumption. lia.
  - rewrite upd_other by (intros ->; contradiction). specialize (IH D2 H). lia.
Qed.

Lemma msum_upd_le : forall f c x cs, NoDup cs -> mconn x <= mconn (f c) + 6 ->
  msum (upd f c x) cs <= msum f cs + 6.
Proof.
  intros f c x cs D H. destruct (in_dec N.eq_dec c cs) as [I|I].
  - pose proof (msum_upd f c x cs D I). lia.
  - rewrite msum_other by assumption. lia.
Qed.

Lemma work_step : forall limit tr cs s ev, NoDup cs -> concerns cs ev -> progress ev = true ->
  step limit tr s ev = s \/ work cs (step limit tr s ev) < work cs s.
Proof.
  intros limit tr cs s ev D C P.
  destruct ev as [c i se v|c|c|c| |k v|k|c k|c|c|c| |c|c]; try discriminate; cbn [step concerns] in *.
  - destruct (loop (conns s c)) eqn:L; auto. right.
    destruct (inproc (conns s c) =? limit); unfold work; cbn [setc workq busy conns];
    match goal with |- context [upd (conns s) c ?x] => pose proof (msum_upd (conns s) c x cs D C) as M end;
    unfold mconn in M; cbn [inbox loop permit answering subbing notifying outq] in M; rewrite L in M; lia.
  - destruct (loop (conns s c)) eqn:L; auto. destruct (permit (conns s c)) eqn:PM; auto. right.
    unfold work; cbn [setc workq busy conns].
    match goal with |- context [upd (conns s) c ?x] => pose proof (msum_upd (conns s) c x cs D C) as M end;
    unfold mconn in M; cbn [inbox loop permit answering subbing notifying outq] in M; rewrite L, PM in M; lia.
  - destruct (loop (conns s c)) eqn:L; auto. destruct (inbox (conns s c)) as [|q r] eqn:B; auto. right.
    destruct (live s =? 0); unfold work; cbn [setc workq busy conns]; rewrite ?app_length; cbn [length];
    match goal with |- context [upd (conns s) c ?x] => pose proof (msum_upd (conns s) c x cs D C) as M end;
    unfold mconn in M; cbn [inbox loop permit answering subbing notifying outq] in M; rewrite L, B in M; cbn [length] in M; lia.
  - destruct (workq s) as [|j r] eqn:W; auto. destruct (length (busy s) <? live s); auto. right.
    unfold work; cbn [workq busy conns]. rewrite W, app_length. cbn [length]. lia.
  - destruct (nth_error (busy s) k) as [[c q]|] eqn:K; auto. destruct (value q); auto. right.
    pose proof (remove_nth_length _ _ _ _ K) as RL. unfold work; cbn [setc workq busy conns].
    match goal with |- context [upd (conns s) c ?x] => pose proof (msum_upd_le (conns s) c x cs D) as M;
      assert (Q : mconn x <= mconn (conns s c) + 6) by
       (unfold mconn; cbn [inbox loop permit answering subbing notifying outq]; rewrite app_length; cbn [length]; lia) end.
    specialize (M Q). lia.
  - destruct (nth_error (answering (conns s c)) k) as [r|] eqn:K; auto. right.
    pose proof (remove_nth_length _ _ _ _ K) as RL. unfold work; cbn [setc workq busy conns].
    match goal with |- context [upd (conns s) c ?x] => pose proof (msum_upd (conns s) c x cs D C) as M end.
    unfold mconn in M; cbn [inbox loop permit answering subbing notifying outq] in M.
    destruct (writing (conns s c)); rewrite ?app_length in M; cbn [length] in M; lia.
  - destruct (subbing (conns s c)) as [|n] eqn:E; auto. right. unfold work; cbn [setc workq busy conns].
    match goal with |- context [upd (conns s) c ?x] => pose proof (msum_upd (conns s) c x cs D C) as M end.
    unfold mconn in M; cbn [inbox loop permit answering subbing notifying outq] in M. rewrite E in M. lia.
  - destruct (notifying (conns s c)) as [|n] eqn:E; auto. right. unfold work; cbn [setc workq busy conns].
    match goal with |- context [upd (conns s) c ?x] => pose proof (msum_upd (conns s) c x cs D C) as M end.
    unfold mconn in M; cbn [inbox loop permit answering subbing notifying outq] in M. rewrite E in M.
    destruct (permit (conns s c)); lia.
  - destruct (writing (conns s c)) eqn:W; auto. destruct (outq (conns s c)) as [|r o] eqn:O; auto. right.
    unfold work; cbn [setc workq busy conns].
    match goal with |- context [upd (conns s) c ?x] => pose proof (msum_upd (conns s) c x cs D C) as M end.
    unfold mconn in M; cbn [inbox loop permit answering subbing notifying outq] in M. rewrite O in M. cbn [length] in M. lia.
Qed.

(* a schedule in which every event does something *)
Fixpoint effective (limit : nat) (tr : N -> transport) (s : server) (h : list event) : Prop :=
  match h with
  | [] => True
  | ev :: r => step limit tr s ev <> s /\ effective limit tr (step limit tr s ev) r
  end.

Lemma bounded : forall limit tr cs h s, NoDup cs ->
  (forall ev, In ev h -> progress ev = true /\ concerns cs ev) ->
  effective limit tr s h -> length h <= work cs s.
Proof.
  induction h as [|ev h IH]; cbn [effective length]; intros s D H E; [lia|].
  destruct E as [E1 E2]. destruct (H ev (or_introl eq_refl)) as [P C].
  destruct (work_step limit tr cs s ev D C P) as [X|X]; [contradiction|].
  specialize (IH _ D (fun e I => H e (or_intror I)) E2). lia.
Qed.

(* ---- crashes ---- *)
Definition responses (x : conn) : list resp := answering x ++ outq x ++ written x ++ unwritten x.

Lemma responses_local : forall limit v v', lstep limit v v' -> vb v = [] ->
  forall r, In r (responses (vc v')) -> In r (responses (vc v)).
Proof.
  intros limit v v' H B r R. destruct H; cbn [vc vb] in *; try exact R; unfold responses in *;
  cbn [answering outq written unwritten] in R.
  - destruct b1; discriminate.
  - rewrite H. destruct (writing x); repeat rewrite in_app_iff in *; cbn [In] in *; intuition.
  - rewrite H0. repeat rewrite in_app_iff in *; cbn [In] in *; intuition.
  - repeat rewrite in_app_iff in *; cbn [In] in *; intuition.
Qed.

Lemma busy_live : forall limit tr s ev, live s = 0 -> busy s = [] ->
  live (step limit tr s ev) = 0 /\ busy (step limit tr s ev) = [].
Proof.
  intros limit tr s ev L B.
  destruct ev as [c i se v|c|c|c| |k v|k|c k|c|c|c| |c|c]; cbn [step];
  rewrite ?B, ?L; try (destruct k; cbn [nth_error]; auto; fail);
  repeat (match goal with
    | |- context [match ?x with _ => _ end] => destruct x eqn:?
    end); cbn [setc live busy]; auto. discriminate.
Qed.

Lemma dead_server : forall limit tr h s, live s = 0 -> busy s = [] ->
  forall c r, In r (responses (conns (run limit tr s h) c)) -> In r (responses (conns s c)).
Proof.
  induction h as [|ev h IH]; cbn [run]; intros s L B c r R; [exact R|].
  destruct (busy_live limit tr s ev L B) as [L' B'].
  apply (IH _ L' B') in R.
  apply (responses_local limit (view s c) (view (step limit tr s ev) c) (view_step _ _ _ _ _)); [|exact R].
  unfold view. cbn [vb]. rewrite B. reflexivity.
Qed.

(* one malformed request on a fresh connection *)
Definition kill1 (c : N) : list event := [Arrive c None None None; Look c; Accept c; Start; Crash 0].

Lemma kill1_ok : forall limit tr s c k, 0 < limit -> workq s = [] -> busy s = [] -> live s = S k -> conns s c = conn0 ->
  let s' := run limit tr s (kill1 c) in
  workq s' = [] /\ busy s' = [] /\ live s' = k /\ (forall d, d <> c -> conns s' d = conns s d).
Proof.
  intros limit tr s c k HL W B L C.
  assert (L0 : (0 <? limit) = true) by (apply Nat.ltb_lt; exact HL).
  assert (L1 : (0 =? limit) = false) by (apply Nat.eqb_neq; lia).
  set (q := mkReq 0 None None None).
  set (x1 := mkConn [q] [q] Top false 0 [] 0 0 [] true [] []).
  set (x2 := mkConn [q] [q] Reserved false 1 [] 0 0 [] true [] []).
  set (x3 := mkConn [q] [] Top false 1 [] 0 0 [] true [] []).
  assert (E1 : step limit tr s (Arrive c None None None) = setc s c x1).
  { cbn [step]. rewrite C. cbn [conn0 inbox arrived length]. rewrite L0. reflexivity. }
  assert (E2 : step limit tr (setc s c x1) (Look c) = setc (setc s c x1) c x2).
  { cbn [step]. cbn [setc conns]. rewrite upd_same. cbn [x1 loop inproc]. rewrite L1. reflexivity. }
  assert (E3 : step limit tr (setc (setc s c x1) c x2) (Accept c) =
     mkS (upd (conns (setc (setc s c x1) c x2)) c x3) [(c, q)] [] (live s) (lost s) (graceful s)).
  { cbn [step]. cbn [setc conns live workq busy lost graceful]. rewrite upd_same. cbn [x2 loop inbox]. rewrite L, W, B. reflexivity. }
  unfold kill1. cbn [run]. rewrite E1, E2, E3. cbn [step workq busy live length]. rewrite L. cbn [Nat.ltb Nat.leb app].
  cbn [step busy nth_error remove_nth workq live conns]. 
  repeat split; try lia.
  intros d D. cbn [setc conns]. rewrite !upd_other by assumption. reflexivity.
Qed.

Fixpoint kill (n : nat) (c : N) : list event :=
  match n with O => [] | S n' => kill1 c ++ kill n' (c + 1)%N end.

Lemma kill_ok : forall n limit tr s c, 0 < limit -> workq s = [] -> busy s = [] -> live s = n ->
  (forall d, (c <= d)%N -> conns s d = conn0) ->
  live (run limit tr s (kill n c)) = 0 /\ busy (run limit tr s (kill n c)) = [].
Proof.
  induction n as [|n IH]; intros limit tr s c HL W B L C; [cbn [kill run]; auto|].
  cbn [kill]. rewrite run_app.
  destruct (kill1_ok limit tr s c n HL W B L (C c (N.le_refl c))) as (W' & B' & L' & C').
  apply IH; auto. intros d D. rewrite C' by lia. apply C. lia.
Qed.

(* leaked slots *)
Lemma lost_grow : forall limit v v', lstep limit v v' -> exists l, vl v' = vl v ++ l.
Proof. intros limit v v' H. destruct H; cbn [vl]; try (exists []; rewrite app_nil_r; reflexivity); eauto. Qed.

Lemma leaked_step : forall limit v v', counted limit v -> limit <= length (vl v) -> lstep limit v v' ->
  limit <= length (vl v') /\ vb v = [] /\ (forall r, In r (responses (vc v')) -> In r (responses (vc v))).
Proof.
  intros limit v v' [C1 C2] L H.
  assert (B : vb v = []).
  { assert (load v <= inproc (vc v)) by (destruct (loop (vc v)); lia).
    unfold load in *. destruct (vb v); [reflexivity|]. cbn [length] in *. lia. }
  split; [|split; [exact B|eapply responses_local; eassumption]].
  destruct (lost_grow _ _ _ H) as [l E]. rewrite E, app_length. lia.
Qed.

Lemma leaked_run : forall limit tr h s c, counted limit (view s c) -> limit <= length (jobs c (lost s)) ->
  forall r, In r (responses (conns (run limit tr s h) c)) -> In r (responses (conns s c)).
Proof.
  induction h as [|ev h IH]; cbn [run]; intros s c C L r R; [exact R|].
  destruct (leaked_step limit (view s c) (view (step limit tr s ev) c) C L (view_step _ _ _ _ _)) as (L' & B & G).
  apply G. apply IH; [eapply counted_step; [exact C|apply view_step]|exact L'|exact R].
Qed.

(* responses only come from handlers that finish *)
Lemma response_origin : forall limit tr c r l s, In r (responses (conns (run limit tr s l) c)) ->
    In r (responses (conns s c)) \/ exists h1 k h2 q,
    l = h1 ++ Finish k (pvalue r) :: h2 /\
    nth_error (busy (run limit tr s h1)) k = Some (c, q) /\
    ser q = answers r /\ rid q = pid r /\ rsession q = psession r.
Proof.
  intros limit tr c r. induction l as [|ev l IH]; cbn [run]; intros s H; [left; exact H|].
    destruct (IH _ H) as [A|(h1 & k & h2 & q & E & X)].
    - clear IH H.
      assert (S1 : In r (responses (conns s c)) \/ exists k q, ev = Finish k (pvalue r) /\
        nth_error (busy s) k = Some (c, q) /\ ser q = answers r /\ rid q = pid r /\ rsession q = psession r).
      { destruct ev as [c' i se v|c'|c'|c'| |k v|k|c' k|c'|c'|c'| |c'|c'].
        6: { cbn [step] in A. destruct (nth_error (busy s) k) as [[c' q]|] eqn:K; [|left; exact A].
             destruct (value q) eqn:V; [|left; exact A].
             cbn [conns setc] in A.
             match type of A with context [upd ?f c' ?y c] => destruct (upd_cases f c' y c) as [[E1 E2] | E2] end; rewrite E2 in A; [subst c'|left; exact A].
             unfold responses in A. cbn [answering outq written unwritten] in A.
             rewrite <- app_assoc in A. apply in_app_or in A. destruct A as [A|A]; [left; apply in_or_app; auto|].
             cbn [app] in A. destruct A as [A|A]; [|left; apply in_or_app; auto]. subst r.
             right. exists k, q. cbn. auto. }
        all: left.
        - cbn [step] in A. destruct (_ <? _); [|exact A]. cbn [conns setc] in A.
          match type of A with context [upd ?f c' ?y c] => destruct (upd_cases f c' y c) as [[E1 E2] | E2] end; rewrite E2 in A; [subst c'|]; exact A.
        - cbn [step] in A. destruct (loop (conns s c')); try exact A. destruct (_ =? _); cbn [conns setc] in A;
          match type of A with context [upd ?f c' ?y c] => destruct (upd_cases f c' y c) as [[E1 E2] | E2] end; rewrite E2 in A; try subst c'; exact A.
        - cbn [step] in A. destruct (loop (conns s c')); try exact A. destruct (permit (conns s c')); [|exact A]. cbn [conns setc] in A;
          match type of A with context [upd ?f c' ?y c] => destruct (upd_cases f c' y c) as [[E1 E2] | E2] end; rewrite E2 in A; try subst c'; exact A.
        - cbn [step] in A. destruct (loop (conns s c')); try exact A. destruct (inbox (conns s c')); [exact A|]. destruct (_ =? _); cbn [conns setc] in A;
          match type of A with context [upd ?f c' ?y c] => destruct (upd_cases f c' y c) as [[E1 E2] | E2] end; rewrite E2 in A; try subst c'; exact A.
        - cbn [step] in A. destruct (workq s); [exact A|]. destruct (_ <? _); exact A.
        - cbn [step] in A. destruct (nth_error (busy s) k); exact A.
        - cbn [step] in A. destruct (nth_error (answering (conns s c')) k) as [y|] eqn:K; [|exact A]. cbn [conns setc] in A.
          match type of A with context [upd ?f c' ?y c] => destruct (upd_cases f c' y c) as [[E1 E2] | E2] end; rewrite E2 in A; [subst c'|exact A].
          destruct (remove_nth_split _ _ _ _ K) as (a1 & a2 & E3 & E4). unfold responses in *. cbn [answering outq written unwritten] in A.
          rewrite E4 in A. rewrite E3. destruct (writing (conns s c)); repeat rewrite in_app_iff in *; cbn [In] in *; tauto.
        - cbn [step] in A. destruct (subbing (conns s c')); [exact A|]. cbn [conns setc] in A.
          match type of A with context [upd ?f c' ?y c] => destruct (upd_cases f c' y c) as [[E1 E2] | E2] end; rewrite E2 in A; try subst c'; exact A.
        - cbn [step] in A. destruct (notifying (conns s c')); [exact A|]. cbn [conns setc] in A.
          match type of A with context [upd ?f c' ?y c] => destruct (upd_cases f c' y c) as [[E1 E2] | E2] end; rewrite E2 in A; try subst c'; exact A.
        - cbn [step] in A. destruct (writing (conns s c')); [|exact A]. destruct (outq (conns s c')) as [|y o] eqn:O; [exact A|]. cbn [conns setc] in A.
          match type of A with context [upd ?f c' ?y c] => destruct (upd_cases f c' y c) as [[E1 E2] | E2] end; rewrite E2 in A; [subst c'|exact A].
          unfold responses in *. cbn [answering outq written unwritten] in A. rewrite O. repeat rewrite in_app_iff in *; cbn [In] in *; tauto.
        - exact A.
        - cbn [step] in A. destruct (graceful s); [|exact A]. destruct (loop (conns s c')); try exact A. cbn [conns setc] in A.
          match type of A with context [upd ?f c' ?y c] => destruct (upd_cases f c' y c) as [[E1 E2] | E2] end; rewrite E2 in A; try subst c'; exact A.
        - cbn [step] in A. destruct (graceful s); [|exact A]. destruct (tr c'); [|exact A]. destruct (writing (conns s c')); [|exact A]. cbn [conns setc] in A.
          match type of A with context [upd ?f c' ?y c] => destruct (upd_cases f c' y c) as [[E1 E2] | E2] end; rewrite E2 in A; [subst c'|exact A].
          unfold responses in *. cbn [answering outq written unwritten] in A. repeat rewrite in_app_iff in *; cbn [In] in *; tauto. }
      destruct S1 as [S1|(k & q & E & X)]; [left; exact S1|]. right. subst ev. exists [], k, l, q. auto.
    - right. exists (ev :: h1), k, h2, q. subst l. auto.
Qed.
