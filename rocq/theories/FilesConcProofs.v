(* Facts about interleaved file operations (FilesConc). *)
From Verif Require Import Base Key KeyProofs Files FilesProofs FilesConc.
From Coq Require Import Permutation Sorted ZifyBool.
Local Open Scope nat_scope.

(* ================= proofs ================= *)
Notation entry := (N * bytes)%type.
Lemma sorted_eq (a b : list entry) : StronglySorted N.lt (map fst a) -> StronglySorted N.lt (map fst b) -> (forall p, In p a <-> In p b) -> a = b.
Proof.
  revert b; induction a as [|x a IH]; intros b Sa Sb H.
  - destruct b as [|y b]; [reflexivity|]. destruct (proj2 (H y) (or_introl eq_refl)).
  - destruct b as [|y b]; [destruct (proj1 (H x) (or_introl eq_refl))|].
    cbn in Sa, Sb. inversion Sa as [|? ? Sa1 Fa]; subst. inversion Sb as [|? ? Sb1 Fb]; subst. rewrite Forall_forall in Fa, Fb.
    assert (E : x = y).
    { destruct (proj1 (H x) (or_introl eq_refl)) as [E|I1]; [congruence|]. destruct (proj2 (H y) (or_introl eq_refl)) as [E|I2]; [congruence|].
      pose proof (Fa _ (in_map fst _ _ I2)). pose proof (Fb _ (in_map fst _ _ I1)). lia. }
    subst y. f_equal. apply IH; try assumption. intros p. split; intros I.
    + destruct (proj1 (H p) (or_intror I)) as [<-|I2]; [|exact I2]. pose proof (Fa _ (in_map fst _ _ I)). lia.
    + destruct (proj2 (H p) (or_intror I)) as [<-|I2]; [|exact I2]. pose proof (Fb _ (in_map fst _ _ I)). lia.
Qed.
Lemma lookup_some_in {A} id (l : list (N * A)) a : lookup id l = Some a -> In (id, a) l.
Proof. induction l as [|[i b] r IH]; cbn; [discriminate|]. destruct (N.eqb_spec id i) as [->|]; [intros [= ->]; left; reflexivity|intros H; right; apply IH, H]. Qed.

(* a list of deletes made from the blocks [dels], all of file f *)
Definition is_plan (f : N) (ds : list block_info) (dels : list entry) : Prop :=
  (exists dels', Forall2 same_info ds (map info_of dels') /\ Permutation dels' dels) /\
  StronglySorted N.lt (map fst dels) /\ Forall (fun p : entry => map_file_id (snd p) = f) dels.
Lemma delete_blocks_all ds : forall bl bl', delete_blocks ds bl = Done bl' -> forall b, In b ds -> In (bi_id b, bi_rev b) bl.
Proof.
  induction ds as [|b r IH]; intros bl bl' H c Hc; [destruct Hc|]. cbn [delete_blocks] in H.
  destruct (lookup (bi_id b) bl) as [x|] eqn:L; [|discriminate]. destruct (bytes_eqb x (bi_rev b)) eqn:EB; [|discriminate]. apply bytes_eqb_spec in EB. subst x.
  destruct Hc as [<-|Hc]; [apply lookup_some_in, L|]. specialize (IH _ _ H _ Hc). unfold delete_id in IH. apply filter_In in IH. tauto.
Qed.
Lemma delete_blocks_nopanic ds : forall bl, delete_blocks ds bl <> Panic.
Proof.
  induction ds as [|b r IH]; intros bl; cbn [delete_blocks]; [discriminate|].
  destruct (lookup (bi_id b) bl); [|discriminate]. destruct (bytes_eqb _ _); [apply IH|discriminate].
Qed.
Lemma apply_deletes_same a b db : Forall2 same_info a b -> apply_deletes a db = apply_deletes b db.
Proof. intros F. unfold apply_deletes. rewrite (delete_blocks_same _ _ F). reflexivity. Qed.
(* the transaction of a plan: it succeeds if and only if all its blocks are
   there, and then removes exactly them *)
Lemma commit_spec bs f ds dels db : wf bs db -> is_plan f ds dels ->
  match apply_deletes ds db with
  | Done db' => wf bs db' /\ files db' = files db /\ (forall p, In p dels -> In p (entries f (blocks db))) /\
      (forall g, g <> f -> entries g (blocks db') = entries g (blocks db)) /\
      entries f (blocks db') = filter (fun p => negb (in_ids (map fst dels) (fst p))) (entries f (blocks db))
  | Fail _ => ~ (forall p, In p dels -> In p (entries f (blocks db)))
  | Panic => False
  end.
Proof.
  intros W ((dels' & F2 & PM) & SS & FF). rewrite (apply_deletes_same _ _ db F2).
  assert (ALL : (forall p, In p dels -> In p (entries f (blocks db))) -> exists db', apply_deletes (map info_of dels') db = Done db' /\ wf bs db' /\ files db' = files db /\
      (forall g, g <> f -> entries g (blocks db') = entries g (blocks db)) /\
      entries f (blocks db') = filter (fun p => negb (in_ids (map fst dels) (fst p))) (entries f (blocks db))).
  { intros H. apply (apply_deletes_spec bs f db (map info_of dels') dels W); [apply Permutation_map, PM|apply sorted_nodup, SS|exact H]. }
  destruct (apply_deletes (map info_of dels') db) as [db'|e|] eqn:E.
  - assert (H : forall p, In p dels -> In p (entries f (blocks db))).
    { intros p Hp. unfold apply_deletes in E. destruct (delete_blocks (map info_of dels') (blocks db)) as [bl| |] eqn:D; try discriminate.
      rewrite Forall_forall in FF. specialize (FF _ Hp). apply filter_In. split; [|lia].
      assert (I : In (info_of p) (map info_of dels')) by (apply in_map; eapply Permutation_in; [apply Permutation_sym, PM|exact Hp]).
      apply (delete_blocks_all _ _ _ D) in I. cbn in I. destruct p; exact I. }
    destruct (ALL H) as (db2 & [= <-] & W2 & A & B & C). repeat (split; [assumption|]). assumption.
  - intros H. destruct (ALL H) as (db2 & X & _). discriminate X.
  - unfold apply_deletes in E. destruct (delete_blocks (map info_of dels') (blocks db)) eqn:D; try discriminate E. exact (delete_blocks_nopanic _ _ D).
Qed.

(* what is decided at the query: [gone] is removed and [kept] stays, if nothing
   happens in between *)
Definition split_by (w : wish) (es gone kept : list entry) : Prop :=
  match w with WTruncate _ RemovingStart | WDelete => es = gone ++ kept | WTruncate _ RemovingEnd => es = kept ++ gone end.
Lemma map_split (l : list entry) a b : map info_of l = a ++ b -> exists a' b', l = a' ++ b' /\ map info_of a' = a /\ map info_of b' = b.
Proof.
  revert l; induction a as [|x a IH]; intros l E; [exists [], l; repeat split; exact E|].
  destruct l as [|y l]; [discriminate|]. cbn in E. injection E as <- E. destruct (IH _ E) as (a' & b' & -> & <- & <-). exists (y :: a'), b'. repeat split.
Qed.
Lemma sorted_halves (a b : list N) : StronglySorted N.lt (a ++ b) -> StronglySorted N.lt a /\ StronglySorted N.lt b.
Proof.
  induction a as [|x a IH]; cbn; intros H; [split; [constructor|exact H]|].
  inversion H as [|? ? S F]; subst. destruct (IH S) as (P & Q). split; [|exact Q]. constructor; [exact P|]. rewrite Forall_app in F. tauto.
Qed.
Lemma sorted_part (a b : list entry) : StronglySorted N.lt (map fst (a ++ b)) -> StronglySorted N.lt (map fst a) /\ StronglySorted N.lt (map fst b).
Proof. rewrite map_app. apply sorted_halves. Qed.
Lemma decide_spec bs f w db q : 0 < bs -> wf bs db -> Permutation q (by_file f db) ->
  exists gone kept, is_plan f (decide w q) gone /\ split_by w (entries f (blocks db)) gone kept /\
    match w with
    | WTruncate n side => truncated bs n side (data_of (entries f (blocks db))) (data_of kept)
    | WDelete => kept = []
    end.
Proof.
  intros Hb W P. set (es := entries f (blocks db)).
  assert (FE : Forall (fun p : entry => map_file_id (snd p) = f) es) by (rewrite Forall_forall; intros p Hp; apply filter_In in Hp as (_ & E); lia).
  assert (SE : StronglySorted N.lt (map fst es)) by (apply entries_sorted, (wf_sorted _ _ W)).
  destruct w as [n side|].
  2:{ exists es, []. split; [|split; [symmetry; apply app_nil_r|reflexivity]]. split; [|split; [exact SE|exact FE]].
      cbn [decide]. rewrite by_file_eq in P. fold es in P. apply Permutation_map_inv in P as (dels' & -> & P).
      exists dels'. split; [|exact (Permutation_sym P)]. clear. induction (map info_of dels'); constructor; [repeat split|assumption]. }
  destruct (truncate_spec bs f n side db q Hb W P) as (db' & A & _ & _ & _ & T). fold es in T.
  assert (SP : exists gone kept, is_plan f (decide (WTruncate n side) q) gone /\ split_by (WTruncate n side) es gone kept).
  { cbn [decide]. rewrite (for_file_eq _ _ _ _ W P). fold es.
    pose proof (set_offsets_same (map info_of es) 0) as SAME. unfold truncate_ops. destruct (total_same _ _ SAME) as (TS & LS).
    fold (total (set_offsets 0 (map info_of es))). rewrite TS.
    destruct (n <=? total (map info_of es)).
    2:{ exists [], es. split; [|destruct side; cbn; rewrite ?app_nil_r; reflexivity]. split; [exists []; split; constructor|]. split; constructor. }
    set (r := total (map info_of es) - n). rewrite LS.
    pose proof (truncate_loop_same (S (length (map info_of es))) side r _ _ SAME) as SL.
    destruct side.
    - destruct (loop_start (S (length (map info_of es))) r (map info_of es)) as (a & b & E & L & _); [lia|]. rewrite L in SL.
      destruct (map_split _ _ _ E) as (a' & b' & E' & <- & <-). exists a', b'. split; [|exact E'].
      rewrite E' in SE, FE. apply Forall_app in FE. apply sorted_part in SE. split; [exists a'; split; [exact SL|apply Permutation_refl]|]. split; tauto.
    - rewrite (loop_end _ _ (map info_of es)) in SL. destruct (loop_start (S (length (map info_of es))) r (rev (map info_of es))) as (a & b & E & L & _); [rewrite rev_length; lia|]. rewrite L in SL.
      assert (E2 : map info_of es = rev b ++ rev a) by (rewrite <- rev_app_distr, <- E, rev_involutive; reflexivity).
      destruct (map_split _ _ _ E2) as (a' & b' & E' & Ea & Eb). exists b', a'. split; [|exact E'].
      rewrite E' in SE, FE. apply Forall_app in FE. apply sorted_part in SE. split; [exists (rev b'); split; [replace (map info_of (rev b')) with a by (rewrite map_rev, Eb, rev_involutive; reflexivity); exact SL|apply Permutation_sym, Permutation_rev]|]. split; tauto. }
  destruct SP as (gone & kept & PL & SB). exists gone, kept. split; [exact PL|]. split; [exact SB|].
  cbn [decide] in PL. pose proof (commit_spec bs f _ gone db W PL) as C. rewrite A in C. destruct C as (_ & _ & _ & _ & C). fold es in C. rewrite C in T.
  assert (ND : NoDup (map fst es)) by (apply sorted_nodup, SE).
  cbn [split_by] in SB. destruct side; rewrite SB in *; [rewrite (proj1 (remove_part _ _ ND)) in T|rewrite (proj2 (remove_part _ _ ND)) in T]; exact T.
Qed.

(* appending, block by block *)
Lemma append_blocks bs data g t db db' : 0 < bs -> wf bs db -> append bs data g t db = Done db' ->
  exists new, blocks db' = blocks db ++ new /\
    forall f, map (fun p => payload (snd p)) (entries f new) = (if (f =? g)%N then chunks bs data else []).
Proof.
  intros Hb W. unfold append. destruct data as [|x r] eqn:ED.
  - intros [= <-]. exists []. rewrite app_nil_r. split; [reflexivity|]. intros f. destruct (f =? g)%N; reflexivity.
  - rewrite <- ED. destruct bs as [|bs']; [lia|]. set (bs := S bs') in *.
    destruct (lookup g (files db)) as [fl|] eqn:L; [|discriminate].
    destruct (insert_blocks _ _) as [l|] eqn:I; [|discriminate]. intros [= <-]. cbn [blocks files].
    assert (Hg : (g < u32_mod)%N).
    { pose proof (wf_files _ _ W) as F. revert L F. generalize (files db). clear. induction l as [|[i a] r IH]; cbn; [discriminate|].
      destruct (N.eqb_spec g i) as [->|]; intros H F; inversion F; subst; auto. }
    destruct (insert_blocks_spec _ _ _ (wf_sorted _ _ W) I) as (new & -> & M & S2). exists new. split; [reflexivity|]. intros f.
    revert M. generalize (chunks bs data). clear - Hg. induction new as [|[i b] r IH]; intros [|c cs] M; try discriminate; [destruct (f =? g)%N; reflexivity|].
    cbn in M. injection M as -> M. cbn [entries filter snd]. rewrite block_file_id by exact Hg. fold (entries f r). specialize (IH _ M). rewrite N.eqb_sym.
    destruct (f =? g)%N; [|exact IH]. cbn [map snd]. unfold payload at 1. rewrite block_data, IH. reflexivity.
Qed.

(* ---------- all reachable states ---------- *)
Definition plans_ok (ps : list (option (N * list block_info))) : Prop :=
  forall i f ds, nth_error ps i = Some (Some (f, ds)) -> exists dels, is_plan f ds dels.
Record cinv (bs : nat) (s : cst) : Prop := { ci_wf : wf bs (c_db s); ci_plans : plans_ok (c_plans s) }.
Lemma clear_nth {A} (l : list (option A)) i j x : nth_error (clear i l) j = Some (Some x) -> nth_error l j = Some (Some x) /\ j <> i.
Proof.
  revert i j; induction l as [|y l IH]; intros [|i] [|j]; cbn; try discriminate; intros H; try (split; [assumption|lia]).
  apply IH in H as (P & Q). split; [exact P|lia].
Qed.
Lemma clear_length {A} (l : list (option A)) i : length (clear i l) = length l.
Proof. revert i; induction l as [|y l IH]; intros [|i]; cbn; try reflexivity. rewrite IH. reflexivity. Qed.
Lemma cinv_step bs s e b s' : 0 < bs -> cinv bs s -> cstep bs s e b s' -> cinv bs s'.
Proof.
  intros Hb (W & P) ST. destruct ST as [db ps f d t o A|db ps f w q Q|db ps i f ds o Nt A|db ps l F]; cbn [c_db c_plans] in *.
  - split; [|exact P]. cbn. destruct o as [db'| |]; cbn [settle]; try exact W. apply (append_spec bs d f t db db' Hb W A).
  - split; [exact W|]. intros i g ds Hi. cbn in Hi. destruct (Nat.lt_ge_cases i (length ps)) as [L|L].
    + rewrite nth_error_app1 in Hi by exact L. eapply P, Hi.
    + rewrite nth_error_app2 in Hi by exact L. destruct (i - length ps) as [|[|k]]; cbn in Hi; try discriminate. injection Hi as <- <-.
      destruct (decide_spec bs f w db q Hb W Q) as (gone & _ & PL & _). exists gone. exact PL.
  - split; cbn.
    + destruct (P _ _ _ Nt) as (dels & PL). pose proof (commit_spec bs f ds dels db W PL) as C. rewrite A in C. destruct o; cbn [settle]; try exact W. apply C.
    + intros j g ds2 Hj. apply clear_nth in Hj as (Hj & _). eapply P, Hj.
  - split; [|exact P]. constructor; cbn; [apply (wf_sorted _ _ W)|apply (wf_blocks _ _ W)|exact F].
Qed.
Lemma cinv_runs bs s tr s' : 0 < bs -> cinv bs s -> cruns bs s tr s' -> cinv bs s'.
Proof. intros Hb I R. induction R as [|s e b s1 tr s2 S R IH]; [exact I|]. apply IH. eapply cinv_step; eassumption. Qed.
(* a call's plan stays what it was *)
Lemma plan_step bs s e b s' i x : cstep bs s e b s' -> i < length (c_plans s) -> nth_error (c_plans s') i = Some (Some x) -> nth_error (c_plans s) i = Some (Some x).
Proof.
  intros ST L. destruct ST as [db ps f d t o A|db ps f w q Q|db ps j f ds o Nt A|db ps l F]; cbn [c_plans] in *; try tauto.
  - rewrite nth_error_app1 by exact L. tauto.
  - intros H. apply clear_nth in H. tauto.
Qed.
Lemma plans_grow bs s e b s' : cstep bs s e b s' -> length (c_plans s) <= length (c_plans s').
Proof. intros ST. destruct ST; cbn [c_plans]; rewrite ?app_length, ?clear_length; lia. Qed.
Lemma plan_runs bs s tr s' i x : cruns bs s tr s' -> i < length (c_plans s) -> nth_error (c_plans s') i = Some (Some x) -> nth_error (c_plans s) i = Some (Some x).
Proof.
  intros R. induction R as [|s e b s1 tr s2 ST R IH]; intros L H; [exact H|]. pose proof (plans_grow _ _ _ _ _ ST).
  eapply plan_step; [exact ST|exact L|]. apply IH; [lia|exact H].
Qed.
