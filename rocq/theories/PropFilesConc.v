(* C91: files used by several clients at once: truncating, deleting and appending
   in every interleaving of their queries and transactions, and reading meanwhile. *)
From Verif Require Import Base Key KeyProofs Files FilesProofs FilesRead PropFiles PropRead FilesConc FilesConcProofs.
From Coq Require Import Permutation Sorted ZifyBool.
Local Open Scope nat_scope.

(* ================= specification ================= *)
Definition start : cst := CS empty_db [].
(* what is left of a list after dropping some of its members *)
Inductive subseq {A} : list A -> list A -> Prop :=
| sub_nil : subseq [] []
| sub_keep x a b : subseq a b -> subseq (x :: a) (x :: b)
| sub_drop x a b : subseq a b -> subseq a (x :: b).
(* the data successfully appended to f, in the order of the transactions; one
   piece for each block of at most bs bytes *)
Definition appended (f : N) (tr : list (cevent * bool)) : list bytes :=
  flat_map (fun x => match x with (Append g d, true) => if (g =? f)%N then [d] else [] | _ => [] end) tr.
Definition pieces (bs : nat) (f : N) (tr : list (cevent * bool)) : list bytes := flat_map (chunks bs) (appended f tr).
(* did some truncation or deletion of f succeed *)
Definition removed_from (f : N) (tr : list (cevent * bool)) : bool :=
  existsb (fun x => match x with (Commit _ g, true) => (g =? f)%N | _ => false end) tr.
(* of the content [c] that the query saw, the call is to remove [gone] and keep [kept] *)
Definition chosen (bs : nat) (w : wish) (c gone kept : bytes) : Prop :=
  match w with
  | WTruncate n side =>
      c = match side with RemovingStart => gone ++ kept | RemovingEnd => kept ++ gone end /\
      (length c <= n -> gone = []) /\ (n < length c -> n <= length kept < n + bs) /\ (n = 0 -> kept = [])
  | WDelete => gone = c /\ kept = []
  end.

(* ================= order of the data ================= *)
Lemma start_inv bs : cinv bs start.
Proof. split; [apply wf_empty|]. intros [|i] f ds H; discriminate H. Qed.
Lemma subseq_refl {A} (l : list A) : subseq l l.
Proof. induction l; constructor; assumption. Qed.
Lemma subseq_app {A} (a b c d : list A) : subseq a b -> subseq c d -> subseq (a ++ c) (b ++ d).
Proof. intros H K. induction H; cbn; [exact K| |]; constructor; assumption. Qed.
Lemma subseq_trans {A} (a b c : list A) : subseq a b -> subseq b c -> subseq a c.
Proof.
  intros H K. revert a H. induction K; intros a' H; [exact H| |].
  - inversion H; subst; [constructor; apply IHK; assumption|constructor; apply IHK; assumption].
  - constructor. apply IHK, H.
Qed.
Lemma subseq_filter {A} (p : A -> bool) l : subseq (filter p l) l.
Proof. induction l as [|x l IH]; cbn; [constructor|]. destruct (p x); constructor; exact IH. Qed.
Lemma subseq_map {A B} (g : A -> B) a b : subseq a b -> subseq (map g a) (map g b).
Proof. intros H. induction H; cbn; constructor; assumption. Qed.
Lemma pieces_app bs f a b : pieces bs f (a ++ b) = pieces bs f a ++ pieces bs f b.
Proof. unfold pieces, appended. rewrite !flat_map_app. reflexivity. Qed.
Lemma pieces_concat bs f tr : 0 < bs -> concat (pieces bs f tr) = concat (appended f tr).
Proof. intros Hb. unfold pieces. induction (appended f tr) as [|d r IH]; cbn; [reflexivity|]. rewrite concat_app, chunks_concat by exact Hb. rewrite IH. reflexivity. Qed.
(* one step, block by block *)
Lemma step_data bs s e b s' f : 0 < bs -> cinv bs s -> cstep bs s e b s' ->
  (removed_from f [(e, b)] = false -> exists new, entries f (blocks (c_db s')) = entries f (blocks (c_db s)) ++ new /\ map (fun p => payload (snd p)) new = pieces bs f [(e, b)]) /\
  (removed_from f [(e, b)] = true -> pieces bs f [(e, b)] = [] /\ exists p, entries f (blocks (c_db s')) = filter p (entries f (blocks (c_db s)))).
Proof.
  intros Hb (W & P) ST. destruct ST as [db ps g d t o A|db ps g w q Q|db ps i g ds o Nt A|db ps l F]; cbn [c_db c_plans] in *.
  - split; [|cbn; discriminate]. intros _. unfold pieces, appended. cbn. destruct o as [db'| |]; cbn [settle succeeded].
    + destruct (append_blocks bs d g t db db' Hb W A) as (new & -> & PN). rewrite entries_app. exists (entries f new). split; [reflexivity|]. rewrite PN, N.eqb_sym.
      destruct (g =? f)%N; cbn; rewrite ?app_nil_r; reflexivity.
    + exists []. rewrite app_nil_r. split; reflexivity.
    + exists []. rewrite app_nil_r. split; reflexivity.
  - split; [|cbn; discriminate]. intros _. exists []. rewrite app_nil_r. split; reflexivity.
  - destruct (P _ _ _ Nt) as (dels & PL). pose proof (commit_spec bs g ds dels db W PL) as C. rewrite A in C. destruct o as [db'| |]; cbn [settle succeeded].
    + destruct C as (_ & _ & _ & C1 & C2). cbn. rewrite orb_false_r. destruct (N.eqb_spec g f) as [->|Ne]; (split; [|discriminate] || (split; [discriminate|])).
      * intros _. split; [reflexivity|]. eexists. exact C2.
      * intros _. exists []. rewrite app_nil_r. split; [apply C1; congruence|reflexivity].
    + split; [|cbn; discriminate]. intros _. exists []. rewrite app_nil_r. split; reflexivity.
    + destruct C.
  - split; [|cbn; discriminate]. intros _. exists []. rewrite app_nil_r. split; reflexivity.
Qed.
Lemma removed_cons f x tr : removed_from f (x :: tr) = removed_from f [x] || removed_from f tr.
Proof. unfold removed_from. cbn. rewrite orb_false_r. reflexivity. Qed.
Lemma runs_data bs s tr s' f : 0 < bs -> cinv bs s -> cruns bs s tr s' ->
  subseq (file_data (c_db s') f) (file_data (c_db s) f ++ pieces bs f tr) /\
  (removed_from f tr = false -> exists new, entries f (blocks (c_db s')) = entries f (blocks (c_db s)) ++ new /\ map (fun p => payload (snd p)) new = pieces bs f tr).
Proof.
  intros Hb I R. induction R as [s|s e b s1 tr s2 ST R IH].
  - split; [unfold pieces; cbn; rewrite app_nil_r; apply subseq_refl|]. intros _. exists []. rewrite app_nil_r. split; reflexivity.
  - destruct (IH (cinv_step _ _ _ _ _ Hb I ST)) as (IH1 & IH2). destruct (step_data bs s e b s1 f Hb I ST) as (D1 & D2).
    change ((e, b) :: tr) with ([(e, b)] ++ tr). rewrite pieces_app. cbn [app]. rewrite removed_cons. destruct (removed_from f [(e, b)]).
    + split; [|discriminate]. destruct (D2 eq_refl) as (-> & p & E). eapply subseq_trans; [exact IH1|]. cbn [app]. apply subseq_app; [|apply subseq_refl].
      unfold file_data. rewrite E. apply subseq_map, subseq_filter.
    + destruct (D1 eq_refl) as (new & E & M). split.
      * eapply subseq_trans; [exact IH1|]. rewrite app_assoc. apply subseq_app; [|apply subseq_refl]. unfold file_data. rewrite E, map_app, M. apply subseq_refl.
      * cbn [orb]. intros Rm. destruct (IH2 Rm) as (new2 & E2 & M2). exists (new ++ new2). rewrite E2, E, app_assoc, map_app, M, M2. split; reflexivity.
Qed.
(* whatever the interleaving, a file holds whole pieces of the appended data, in
   the order in which they were appended, and all of them if nothing was removed *)
Theorem C91_order bs tr s f : 0 < bs -> cruns bs start tr s ->
  exists kept, reads_as bs (c_db s) f (concat kept) /\ subseq kept (pieces bs f tr) /\ (removed_from f tr = false -> concat kept = concat (appended f tr)).
Proof.
  intros Hb R. pose proof (cinv_runs _ _ _ _ Hb (start_inv bs) R) as I. destruct (runs_data bs start tr s f Hb (start_inv bs) R) as (D1 & D2).
  exists (file_data (c_db s) f). split; [apply reads_as_wf, I|]. split; [exact D1|]. intros Rm. destruct (D2 Rm) as (new & E & M).
  unfold file_data. rewrite E. cbn. rewrite M. apply pieces_concat, Hb.
Qed.

(* ================= one call against everything else ================= *)
Lemma data_marks (p : entry -> bool) es : data_of (filter p es) = concat (map fst (filter snd (map (fun x => (payload (snd x), p x)) es))).
Proof. unfold data_of. induction es as [|x es IH]; cbn; [reflexivity|]. destruct (p x); cbn; rewrite IH; reflexivity. Qed.
Lemma data_unmarks (p : entry -> bool) es : data_of (filter (fun x => negb (p x)) es) = concat (map fst (filter (fun m => negb (snd m)) (map (fun x => (payload (snd x), p x)) es))).
Proof. unfold data_of. induction es as [|x es IH]; cbn; [reflexivity|]. destruct (p x); cbn; rewrite IH; reflexivity. Qed.
Lemma reads_as_det bs db f c : wf bs db -> reads_as bs db f c -> c = data_of (entries f (blocks db)).
Proof.
  intros W RA. destruct (RA (by_file f db) 0 (Permutation_refl _)) as (_ & _ & RE). destruct (RE (fun _ => 1) ltac:(intros; cbn; lia)) as (m1 & E1).
  destruct (reads_as_wf bs db f W (by_file f db) 0 (Permutation_refl _)) as (_ & _ & RE2). destruct (RE2 (fun _ => 1) ltac:(intros; cbn; lia)) as (m2 & E2).
  specialize (E1 (m1 + m2) 3 ltac:(lia) ltac:(lia)). specialize (E2 (m1 + m2) 3 ltac:(lia) ltac:(lia)). rewrite E1 in E2. congruence.
Qed.
Lemma chosen_of bs w es gone kept : split_by w es gone kept ->
  match w with WTruncate n side => truncated bs n side (data_of es) (data_of kept) | WDelete => kept = [] end ->
  chosen bs w (data_of es) (data_of gone) (data_of kept).
Proof.
  intros SB T. destruct w as [n side|].
  - destruct T as (_ & T2 & T3 & T4). cbn [chosen]. split; [|split; [|split; assumption]].
    + destruct side; cbn in SB; rewrite SB, data_of_app; reflexivity.
    + intros L. specialize (T2 L). assert (LE : length (data_of es) = length (data_of gone) + length (data_of kept)) by (destruct side; cbn in SB; rewrite SB, data_of_app, app_length; lia).
      rewrite T2 in LE. destruct (data_of gone); [reflexivity|cbn in LE; lia].
  - cbn in *. subst kept. rewrite app_nil_r in SB. subst gone. split; reflexivity.
Qed.
Lemma call_facts bs tr0 s0 f w s1 tr s2 b s3 : 0 < bs -> cruns bs start tr0 s0 -> cstep bs s0 (Query f w) true s1 -> cruns bs s1 tr s2 ->
  cstep bs s2 (Commit (length (c_plans s0)) f) b s3 ->
  exists gone kept, is_plan f (match nth_error (c_plans s1) (length (c_plans s0)) with Some (Some (_, ds)) => ds | _ => [] end) gone /\
    split_by w (entries f (blocks (c_db s0))) gone kept /\ c_db s1 = c_db s0 /\
    chosen bs w (data_of (entries f (blocks (c_db s0)))) (data_of gone) (data_of kept) /\
    (if b then wf bs (c_db s3) /\ files (c_db s3) = files (c_db s2) /\ (forall p, In p gone -> In p (entries f (blocks (c_db s2)))) /\
      (forall g, g <> f -> entries g (blocks (c_db s3)) = entries g (blocks (c_db s2))) /\
      entries f (blocks (c_db s3)) = filter (fun p => negb (in_ids (map fst gone) (fst p))) (entries f (blocks (c_db s2)))
     else c_db s3 = c_db s2 /\ ~ (forall p, In p gone -> In p (entries f (blocks (c_db s2))))).
Proof.
  intros Hb R0 Q R C. pose proof (cinv_runs _ _ _ _ Hb (start_inv bs) R0) as I0. pose proof (cinv_step _ _ _ _ _ Hb I0 Q) as I1. pose proof (cinv_runs _ _ _ _ Hb I1 R) as I2.
  inversion Q as [|db ps f0 w0 q P| |]; subst. cbn [c_db c_plans] in *. destruct (decide_spec bs f w db q Hb (ci_wf _ _ I0) P) as (gone & kept & PL & SB & T).
  exists gone, kept. rewrite nth_error_app2, Nat.sub_diag by lia. cbn [nth_error]. split; [exact PL|]. split; [exact SB|]. split; [reflexivity|].
  split; [eapply chosen_of; eassumption|].
  inversion C as [| |db2 ps2 i0 f0 ds o Nt A|]; subst.
  assert (LP : length ps < length (c_plans (CS db (ps ++ [Some (f, decide w q)])))) by (cbn [c_plans]; rewrite app_length; cbn [length]; lia).
  assert (X := plan_runs _ _ _ _ _ _ R LP Nt). cbn [c_plans] in X. rewrite nth_error_app2, Nat.sub_diag in X by lia. cbn in X. injection X as <-.
  pose proof (commit_spec bs f _ gone db2 (ci_wf _ _ I2) PL) as CS. destruct (apply_deletes (decide w q) db2) as [db'| |]; cbn [succeeded settle c_db]; [exact CS|split; [reflexivity|exact CS]|destruct CS].
Qed.
(* A truncation or a deletion of f that is answered at s0 and whose transaction
   runs at s2, with anything (tr) in between. It was to remove [gone] from the
   content [c0] it saw. If it succeeds, exactly these bytes disappear, as whole
   blocks, from whatever the content is by then, and no other file changes. If it
   fails, nothing changes at all, and another removal from the same file succeeded
   in between. *)
Theorem C91_call bs tr0 s0 f w s1 tr s2 b s3 c0 c2 : 0 < bs -> cruns bs start tr0 s0 -> cstep bs s0 (Query f w) true s1 -> cruns bs s1 tr s2 ->
  cstep bs s2 (Commit (length (c_plans s0)) f) b s3 -> reads_as bs (c_db s0) f c0 -> reads_as bs (c_db s2) f c2 ->
  exists gone kept, chosen bs w c0 gone kept /\
  if b then
    (exists blocks : list (bytes * bool), c2 = concat (map fst blocks) /\ gone = concat (map fst (filter (fun x => negb (snd x)) blocks)) /\
       reads_as bs (c_db s3) f (concat (map fst (filter snd blocks)))) /\
    files (c_db s3) = files (c_db s2) /\ forall g d, g <> f -> reads_as bs (c_db s2) g d -> reads_as bs (c_db s3) g d
  else c_db s3 = c_db s2 /\ removed_from f tr = true.
Proof.
  intros Hb R0 Q R C RA0 RA2. pose proof (cinv_runs _ _ _ _ Hb (start_inv bs) R0) as I0. pose proof (cinv_step _ _ _ _ _ Hb I0 Q) as I1. pose proof (cinv_runs _ _ _ _ Hb I1 R) as I2.
  destruct (call_facts bs tr0 s0 f w s1 tr s2 b s3 Hb R0 Q R C) as (gone & kept & PL & SB & E01 & CH & D).
  rewrite (reads_as_det _ _ _ _ (ci_wf _ _ I0) RA0), (reads_as_det _ _ _ _ (ci_wf _ _ I2) RA2). exists (data_of gone), (data_of kept). split; [exact CH|]. destruct b.
  - destruct D as (W3 & D1 & D2 & D3 & D4). set (es2 := entries f (blocks (c_db s2))) in *.
    set (keep := fun p : entry => negb (in_ids (map fst gone) (fst p))) in *.
    split; [|split; [exact D1|]].
    + exists (map (fun x => (payload (snd x), keep x)) es2). split; [|split].
      * unfold data_of. f_equal. rewrite map_map. reflexivity.
      * rewrite <- data_unmarks. f_equal. apply sorted_eq; [apply PL| |].
        -- apply sorted_map, filter_sorted, sorted_map. apply entries_sorted, (wf_sorted _ _ (ci_wf _ _ I2)).
        -- intros p. rewrite filter_In. unfold keep. rewrite negb_involutive, in_ids_true. split.
           ++ intros Hp. split; [apply D2, Hp|apply in_map, Hp].
           ++ intros (Hp & Hi). apply in_map_iff in Hi as (p' & Ep & Hp'). replace p with p'; [exact Hp'|].
              pose proof (D2 _ Hp') as H2. unfold es2 in Hp, H2. apply filter_In in Hp as (Hp & _). apply filter_In in H2 as (H2 & _).
              destruct p as [i x], p' as [i' x']. cbn in Ep. subst i'. f_equal.
              pose proof (lookup_in _ _ _ (wf_sorted _ _ (ci_wf _ _ I2)) Hp). pose proof (lookup_in _ _ _ (wf_sorted _ _ (ci_wf _ _ I2)) H2). congruence.
      * rewrite <- data_marks, <- D4. apply reads_as_wf, W3.
    + intros g d Ng RA. rewrite (reads_as_det _ _ _ _ (ci_wf _ _ I2) RA), <- (D3 _ Ng). apply reads_as_wf, W3.
  - destruct D as (D1 & D2). split; [exact D1|]. destruct (removed_from f tr) eqn:Rm; [reflexivity|]. exfalso. apply D2.
    destruct (runs_data bs s1 tr s2 f Hb I1 R) as (_ & X). destruct (X Rm) as (new & E & _). rewrite E, E01. intros p Hp. apply in_app_iff. left.
    destruct w as [n [|]|]; cbn in SB; rewrite SB; apply in_app_iff; tauto.
Qed.
(* With only appends to f (and anything on other files) in between, the call
   succeeds, and the result is that of running it at its query, before the appends. *)
Theorem C91_linearizable bs tr0 s0 f w s1 tr s2 b s3 c0 : 0 < bs -> cruns bs start tr0 s0 -> cstep bs s0 (Query f w) true s1 -> cruns bs s1 tr s2 ->
  cstep bs s2 (Commit (length (c_plans s0)) f) b s3 -> reads_as bs (c_db s0) f c0 -> removed_from f tr = false ->
  b = true /\ exists gone kept, chosen bs w c0 gone kept /\
    reads_as bs (c_db s2) f (c0 ++ concat (appended f tr)) /\ reads_as bs (c_db s3) f (kept ++ concat (appended f tr)).
Proof.
  intros Hb R0 Q R C RA0 Rm. pose proof (cinv_runs _ _ _ _ Hb (start_inv bs) R0) as I0. pose proof (cinv_step _ _ _ _ _ Hb I0 Q) as I1. pose proof (cinv_runs _ _ _ _ Hb I1 R) as I2.
  destruct (call_facts bs tr0 s0 f w s1 tr s2 b s3 Hb R0 Q R C) as (gone & kept & PL & SB & E01 & CH & D).
  rewrite (reads_as_det _ _ _ _ (ci_wf _ _ I0) RA0). destruct (runs_data bs s1 tr s2 f Hb I1 R) as (_ & X). destruct (X Rm) as (new & E & M). rewrite E01 in E.
  assert (IN : forall p, In p gone -> In p (entries f (blocks (c_db s2)))).
  { rewrite E. intros p Hp. apply in_app_iff. left. destruct w as [n [|]|]; cbn in SB; rewrite SB; apply in_app_iff; tauto. }
  destruct b; [|exfalso; apply (proj2 D), IN]. split; [reflexivity|]. exists (data_of gone), (data_of kept). split; [exact CH|].
  assert (DN : data_of new = concat (appended f tr)) by (unfold data_of; rewrite M; apply pieces_concat, Hb).
  rewrite <- DN, <- !data_of_app, <- E. split; [apply reads_as_wf, I2|]. destruct D as (W3 & _ & _ & _ & D4).
  replace (kept ++ new) with (entries f (blocks (c_db s3))); [apply reads_as_wf, W3|]. rewrite D4, E, filter_app.
  assert (S2 : NoDup (map fst (entries f (blocks (c_db s2))))) by (apply sorted_nodup, entries_sorted, (wf_sorted _ _ (ci_wf _ _ I2))). rewrite E in S2.
  assert (NN : filter (fun p : entry => negb (in_ids (map fst gone) (fst p))) new = new).
  { apply filter_all. intros p Hp. apply negb_true_iff. destruct (in_ids _ _) eqn:Y; [|reflexivity]. exfalso. apply in_ids_true, in_map_iff in Y as (p' & Ep & Hp').
    rewrite map_app in S2. assert (H1 : In (fst p) (map fst (entries f (blocks (c_db s0))))).
    { rewrite <- Ep. apply in_map. destruct w as [n [|]|]; cbn in SB; rewrite SB; apply in_app_iff; tauto. }
    apply (in_map fst) in Hp. revert S2 H1 Hp. generalize (map fst (entries f (blocks (c_db s0)))) (map fst new) (fst p). clear. intros a b x N A B.
    induction a as [|y a IH]; [destruct A|]. cbn in N. inversion N as [|? ? N1 N2]; subst. destruct A as [->|A]; [apply N1, in_app_iff; tauto|apply IH; assumption]. }
  rewrite NN. f_equal. rewrite map_app in S2. apply nodup_app in S2 as (S2 & _).
  destruct w as [n [|]|]; cbn in SB; rewrite SB in S2 |- *; apply remove_part, S2.
Qed.

(* ================= trimming from one side ================= *)
(* every truncation of f asked for in tr is on this side, to at least m bytes, and
   f is not deleted *)
Definition trims (f : N) (m : nat) (side : truncate_from) (tr : list (cevent * bool)) : Prop :=
  Forall (fun x => match fst x with
                   | Query g (WTruncate n sd) => g = f -> sd = side /\ m <= n
                   | Query g WDelete => g <> f
                   | _ => True end) tr.
(* no truncation or deletion of f is under way *)
Definition idle (f : N) (s : cst) : Prop := forall i ds, nth_error (c_plans s) i <> Some (Some (f, ds)).

Definition zone (side : truncate_from) (cut id : N) : bool := match side with RemovingStart => (cut <? id)%N | RemovingEnd => (id <? cut)%N end.
Definition guarded (side : truncate_from) (m : nat) (es dels : list entry) : Prop :=
  dels = [] \/ exists cut, (forall p, In p dels -> zone side cut (fst p) = false) /\ m <= length (data_of (filter (fun p => zone side cut (fst p)) es)).
Definition tinv (f : N) (m : nat) (side : truncate_from) (s : cst) : Prop :=
  m <= length (data_of (entries f (blocks (c_db s)))) /\
  forall i ds, nth_error (c_plans s) i = Some (Some (f, ds)) -> exists dels, is_plan f ds dels /\ guarded side m (entries f (blocks (c_db s))) dels.
Lemma data_of_mono (p q : entry -> bool) es : (forall x, p x = true -> q x = true) -> length (data_of (filter p es)) <= length (data_of (filter q es)).
Proof.
  intros H. unfold data_of. induction es as [|x es IH]; cbn [filter]; [lia|]. specialize (H x). destruct (p x), (q x); cbn [map concat]; rewrite ?app_length; lia.
Qed.
Lemma filter_twice (p q : entry -> bool) es : filter p (filter q es) = filter (fun x => p x && q x) es.
Proof. induction es as [|x es IH]; cbn [filter]; [reflexivity|]. destruct (q x) eqn:Q; cbn [filter]; rewrite ?Q, ?andb_true_r, ?andb_false_r, IH; reflexivity. Qed.
Lemma zone_chain side a b : (forall x, zone side a x = true -> zone side b x = true) \/ (forall x, zone side b x = true -> zone side a x = true).
Proof. destruct side; cbn; destruct (N.le_ge_cases a b); [right|left|left|right]; intros x; lia. Qed.
Lemma sorted_between (a b : list N) x : StronglySorted N.lt (a ++ x :: b) -> (forall y, In y a -> (y < x)%N) /\ (forall y, In y b -> (x < y)%N).
Proof.
  induction a as [|z a IH]; cbn; intros H; inversion H as [|? ? S F]; subst; rewrite Forall_forall in F.
  - split; [tauto|]. intros y Hy. apply F, Hy.
  - destruct (IH S) as (P & Q). split; [|exact Q]. intros y [<-|Hy]; [apply F, in_app_iff; right; left; reflexivity|apply P, Hy].
Qed.
Lemma guarded_query bs f n side m db q : 0 < bs -> wf bs db -> Permutation q (by_file f db) -> m <= n -> m <= length (data_of (entries f (blocks db))) ->
  exists dels, is_plan f (decide (WTruncate n side) q) dels /\ guarded side m (entries f (blocks db)) dels.
Proof.
  intros Hb W P Hm Hl. destruct (decide_spec bs f (WTruncate n side) db q Hb W P) as (gone & kept & PL & SB & (_ & T2 & T3 & _)). exists gone. split; [exact PL|].
  assert (S := entries_sorted f _ (wf_sorted _ _ W)). set (es := entries f (blocks db)) in *.
  assert (K : m <= length (data_of kept)) by (destruct (Nat.le_gt_cases (length (data_of es)) n) as [L|L]; [rewrite (T2 L); exact Hl|specialize (T3 L); lia]). clear T2 T3.
  assert (FK : forall (z : entry -> bool), (forall p, In p kept -> z p = true) -> length (data_of kept) <= length (data_of (filter z es))).
  { intros z Hz. rewrite <- (filter_all z kept Hz) at 1. cbn in SB. destruct side; rewrite SB, filter_app, data_of_app, app_length; lia. }
  destruct gone as [|x g] using rev_ind; [left; reflexivity|]. clear IHg. right. cbn in SB. destruct side.
  - exists (fst x). cbn [zone]. rewrite SB, map_app, map_app in S. cbn [map] in S. rewrite <- app_assoc in S. cbn [app] in S. apply sorted_between in S as (S1 & S2). split.
    + intros p Hp. apply in_app_iff in Hp as [Hp|[<-|[]]]; [apply (in_map fst), S1 in Hp; lia|lia].
    + eapply Nat.le_trans; [exact K|]. apply FK. intros p Hp. apply (in_map fst), S2 in Hp. lia.
  - destruct (g ++ [x]) as [|y g'] eqn:EG; [destruct g; discriminate|]. exists (fst y). cbn [zone]. rewrite SB, map_app in S. cbn [map] in S. apply sorted_between in S as (S1 & S2). split.
    + intros p [<-|Hp]; [lia|apply (in_map fst), S2 in Hp; lia].
    + eapply Nat.le_trans; [exact K|]. apply FK. intros p Hp. apply (in_map fst), S1 in Hp. lia.
Qed.
Lemma tinv_same f m side db ps db' ps' : tinv f m side (CS db ps) -> entries f (blocks db') = entries f (blocks db) ->
  (forall i ds, nth_error ps' i = Some (Some (f, ds)) -> nth_error ps i = Some (Some (f, ds))) -> tinv f m side (CS db' ps').
Proof. intros (T1 & T2) E H. split; cbn [c_db c_plans] in *; rewrite E; [exact T1|]. intros i ds Hi. apply T2 with (i := i), H, Hi. Qed.
Lemma tinv_grow f m side db ps db' : tinv f m side (CS db ps) -> (exists new, entries f (blocks db') = entries f (blocks db) ++ new) -> tinv f m side (CS db' ps).
Proof.
  intros (T1 & T2) (new & E). split; cbn [c_db c_plans] in *; rewrite E.
  - rewrite data_of_app, app_length. lia.
  - intros i ds Hi. destruct (T2 i ds Hi) as (dels & PL & G). exists dels. split; [exact PL|]. destruct G as [->|(cut & G1 & G2)]; [left; reflexivity|]. right. exists cut. split; [exact G1|].
    rewrite filter_app, data_of_app, app_length. lia.
Qed.
Lemma tinv_step bs s e b s' f m side : 0 < bs -> cinv bs s -> tinv f m side s -> trims f m side [(e, b)] -> cstep bs s e b s' -> tinv f m side s'.
Proof.
  intros Hb I T TR ST. pose proof (step_data bs s e b s' f Hb I ST) as (D & _). destruct I as (W & P).
  destruct ST as [db ps g d t o A|db ps g w q Q|db ps i g ds o Nt A|db ps l F]; cbn [c_db c_plans] in *.
  - destruct (D eq_refl) as (new & E & _). eapply tinv_grow; [exact T|]. exists new. exact E.
  - destruct T as (T1 & T2). split; [exact T1|]. cbn [c_db c_plans] in *. intros i ds Hi. destruct (Nat.lt_ge_cases i (length ps)) as [L|L].
    + rewrite nth_error_app1 in Hi by exact L. apply T2 with (i := i), Hi.
    + rewrite nth_error_app2 in Hi by exact L. destruct (i - length ps) as [|[|k]]; cbn in Hi; try discriminate. injection Hi as -> <-.
      inversion TR as [|? ? TR1 _]; subst. cbn in TR1. destruct w as [n sd|]; [|exfalso; apply TR1; reflexivity]. destruct (TR1 eq_refl) as (-> & Hm).
      eapply guarded_query; eassumption.
  - destruct (N.eq_dec g f) as [->|Ne].
    2:{ destruct (P _ _ _ Nt) as (dels & PL). pose proof (commit_spec bs g ds dels db W PL) as C. rewrite A in C. eapply tinv_same; [exact T| |intros j ds2 Hj; apply clear_nth in Hj; tauto].
        destruct o; cbn [settle]; try reflexivity. apply C. congruence. }
    assert (KEEP : tinv f m side (CS db (clear i ps))) by (eapply tinv_same; [exact T|reflexivity|intros j ds2 Hj; apply clear_nth in Hj; tauto]).
    destruct T as (T1 & T2). cbn [c_db c_plans] in *. destruct (T2 _ _ Nt) as (dels & PL & G). pose proof (commit_spec bs f ds dels db W PL) as C. rewrite A in C.
    destruct o as [db'| |]; cbn [settle]; [|exact KEEP|exact KEEP]. destruct C as (_ & _ & _ & _ & C). set (es := entries f (blocks db)) in *.
    destruct G as [->|(cut & G1 & G2)].
    + eapply tinv_same; [exact KEEP| |tauto]. rewrite C. apply filter_all. reflexivity.
    + assert (ND : forall p : entry, zone side cut (fst p) = true -> negb (in_ids (map fst dels) (fst p)) = true).
      { intros p Z. apply negb_true_iff. destruct (in_ids _ _) eqn:Y; [|reflexivity]. exfalso. apply in_ids_true, in_map_iff in Y as (p' & Ep & Hp'). apply G1 in Hp'. congruence. }
      split; cbn [c_db c_plans]; rewrite C.
      * eapply Nat.le_trans; [exact G2|]. apply data_of_mono. exact ND.
      * intros j ds2 Hj. apply clear_nth in Hj as (Hj & _). destruct (T2 _ _ Hj) as (dels2 & PL2 & H). exists dels2. split; [exact PL2|].
        destruct H as [->|(cut2 & H1 & H2)]; [left; reflexivity|]. right. exists cut2. split; [exact H1|]. rewrite filter_twice.
        destruct (zone_chain side cut cut2) as [Z|Z].
        -- eapply Nat.le_trans; [exact G2|]. apply data_of_mono. intros p Hp. rewrite (Z _ Hp). apply ND, Hp.
        -- eapply Nat.le_trans; [exact H2|]. apply data_of_mono. intros p Hp. rewrite Hp. apply ND, Z, Hp.
  - eapply tinv_grow; [exact T|]. exists []. rewrite app_nil_r. reflexivity.
Qed.
(* however many clients truncate a file at once, from the same side and to at
   least m bytes, it never gets shorter than m bytes (if it was not before) *)
Theorem C91_trimming bs tr0 s0 f m side tr s c0 c : 0 < bs -> cruns bs start tr0 s0 -> idle f s0 -> reads_as bs (c_db s0) f c0 -> m <= length c0 ->
  cruns bs s0 tr s -> trims f m side tr -> reads_as bs (c_db s) f c -> m <= length c.
Proof.
  intros Hb R0 ID RA0 Hm R TR RA. pose proof (cinv_runs _ _ _ _ Hb (start_inv bs) R0) as I0.
  rewrite (reads_as_det _ _ _ _ (ci_wf _ _ I0) RA0) in Hm.
  rewrite (reads_as_det _ _ _ _ (ci_wf _ _ (cinv_runs _ _ _ _ Hb I0 R)) RA).
  assert (T : tinv f m side s0) by (split; [exact Hm|]; intros i ds Hi; destruct (ID _ _ Hi)). clear RA0 RA ID Hm R0.
  enough (tinv f m side s) as (X & _) by exact X.
  induction R as [s|s e b s1 tr s2 ST R IH]; [exact T|]. inversion TR as [|? ? TR1 TR2]; subst. apply IH; [exact TR2|eapply cinv_step; eassumption|].
  eapply tinv_step; try eassumption. constructor; [exact TR1|constructor].
Qed.

(* ================= reading meanwhile ================= *)
(* the blocks that an open reader of f, opened on db0, has not read to their end at
   position pos are all still stored in db *)
Definition unread_kept (f : N) (db0 : fdb) (pos : nat) (db : fdb) : Prop :=
  forall b, In b (for_file f db0) -> pos < bi_offset b + bi_length b -> lookup (bi_id b) (blocks db) = Some (bi_rev b).
Definition read_so_far (rs : list result) : nat := fold_right (fun r a => match r with RRead l => length l + a | _ => a end) 0 rs.

Lemma consume_front n bs : forall cur off i b r cur' off' out, consume n (number_from cur bs) cur off = Some ((i, b) :: r, cur', off', Some out) -> i = cur'.
Proof.
  induction bs as [|d bs IH]; intros cur off i b r cur' off' out; cbn [number_from consume]; [discriminate|].
  destruct (length d <? off); [discriminate|]. destruct (firstn n (skipn off d)); [apply IH|]. intros [= -> _ _ -> _ _]. reflexivity.
Qed.
Lemma consume_some n bs : forall cur off l cur' off' out, consume n (number_from cur bs) cur off = Some (l, cur', off', Some out) -> exists b r, l = (cur', b) :: r.
Proof.
  induction bs as [|d bs IH]; intros cur off l cur' off' out; cbn [number_from consume]; [discriminate|].
  destruct (length d <? off); [discriminate|]. destruct (firstn n (skipn off d)); [apply IH|]. intros [= <- <- _ _]. eexists _, _. reflexivity.
Qed.
Lemma nb_read_front n c ds c' out : ok c ds -> non_blocking_read n c = Some (c', ReadBytes out) -> at_front c'.
Proof.
  intros K. unfold non_blocking_read. destruct (ok_loaded _ _ K) as (i & k & EL). rewrite EL.
  destruct (number_from i (firstn k (skipn i ds))) as [|[x b0] r0] eqn:EN; [destruct (more c); discriminate|].
  destruct (number_from_hd _ _ _ _ _ EN) as (-> & _). rewrite <- EN. destruct (Nat.eqb_spec x (c_current c)) as [->|]; cbn [negb]; [|destruct (more c); discriminate].
  destruct (consume _ _ _ _) as [[[[l cur] off] [o|]]|] eqn:C; [|match goal with |- context [more ?x] => destruct (more x) end; discriminate|discriminate].
  intros [= <- _]. destruct (consume_some _ _ _ _ _ _ _ _ C) as (b & r & ->). exists b, r. reflexivity.
Qed.
Lemma front_dec c : at_front c \/ ~ at_front c.
Proof.
  unfold at_front. destruct (c_loaded c) as [|[x b] r]; [right; intros (? & ? & ?); discriminate|].
  destruct (Nat.eq_dec x (c_current c)) as [->|Ne]; [left; exists b, r; reflexivity|right; intros (? & ? & [= ? ? ?]); congruence].
Qed.
Lemma load_agrees db db2 ids : (forall id, In id ids -> lookup id (blocks db) = lookup id (blocks db2)) -> load ids db = load ids db2.
Proof.
  intros H. unfold load. f_equal. induction ids as [|i ids IH]; cbn; [reflexivity|]. rewrite (H i (or_introl eq_refl)). f_equal. apply IH. intros id Hi. apply H. right. exact Hi.
Qed.
Lemma concat_firstn_mono (ds : list bytes) i j : i <= j -> length (concat (firstn i ds)) <= length (concat (firstn j ds)).
Proof.
  revert i j; induction ds as [|d ds IH]; intros [|i] [|j] H; cbn; try lia. rewrite !app_length. specialize (IH i j ltac:(lia)). lia.
Qed.
Lemma in_skipn_nth {A} (x : A) k l : In x (skipn k l) -> exists i, k <= i /\ nth_error l i = Some x.
Proof.
  intros H. apply In_nth_error in H as (j & H). exists (k + j). split; [lia|]. destruct (Nat.le_gt_cases k (length l)) as [L|L].
  - rewrite <- (firstn_skipn k l). rewrite nth_error_app2 by (rewrite firstn_length; lia). rewrite firstn_length, Nat.min_l by exact L. replace (k + j - k) with j by lia. exact H.
  - rewrite skipn_all2 in H by lia. destruct j; discriminate H.
Qed.
Lemma read_agrees ds n db db2 : 0 < n -> forall fuel c, ok c ds -> stored db2 (c_blocks c) ds -> (at_front c \/ c_offset c = 0) ->
  (forall b, In b (c_blocks c) -> here c ds < bi_offset b + bi_length b -> lookup (bi_id b) (blocks db) = lookup (bi_id b) (blocks db2)) ->
  read fuel n db c = read fuel n db2 c /\ (forall c' out, read fuel n db2 c = Done (Some (c', out)) -> out <> [] -> at_front c').
Proof.
  intros Hn. induction fuel as [|k IH]; intros c K St FO H; [split; [reflexivity|discriminate]|]. cbn [read].
  destruct (nb_read_spec n c ds Hn K) as (c1 & r & E & K1 & B1 & _ & D). rewrite E. destruct r as [|out|].
  - destruct D as (D1 & D2 & D3 & D4).
    assert (O1 : c_offset c1 = 0).
    { destruct (front_dec c) as [F|F]; [apply (D3 F)|]. rewrite (D4 F). destruct FO as [FO|FO]; [contradiction|exact FO]. }
    assert (St1 : stored db2 (c_blocks c1) ds) by (rewrite B1; exact St).
    assert (EL : load_blocks db c1 = load_blocks db2 c1).
    { unfold load_blocks. rewrite (load_agrees db db2); [reflexivity|]. intros id Hid. apply in_map_iff in Hid as (b & <- & Hb).
      unfold next_blocks in Hb. assert (Hb2 : In b (skipn (c_current c1) (c_blocks c1))) by (rewrite <- (firstn_skipn (Nat.max 1 (blocks_that_fit (c_buffer c1) 0 (skipn (c_current c1) (c_blocks c1)))) (skipn (c_current c1) (c_blocks c1))); apply in_app_iff; left; exact Hb). clear Hb.
      destruct (in_skipn_nth _ _ _ Hb2) as (i & Li & Ni). destruct (laid_nth _ _ _ _ _ (ok_laid _ _ K1) Ni) as (d & Nd & Ob & Lb & Ld).
      apply H; [rewrite <- B1; eapply nth_error_In, Ni|]. rewrite <- D1. unfold here. rewrite O1, Ob, Lb. pose proof (concat_firstn_mono ds _ _ Li). lia. }
    rewrite EL. destruct (load_blocks_spec db2 c1 ds K1 St1 D2) as (K2 & A2 & H2 & _ & _ & BB & _). apply IH; [exact K2|rewrite BB; exact St1|left; exact A2|].
    rewrite BB, B1, H2, D1. exact H.
  - split; [reflexivity|]. intros c' o [= <- <-] _. eapply nb_read_front; [exact K|exact E].
  - split; [reflexivity|]. intros c' o [= _ <-] X. congruence.
Qed.
Lemma lookup_entries f db0 db : StronglySorted N.lt (map fst (blocks db0)) ->
  forall id c, In (id, c) (blocks db0) -> map_file_id c = f -> lookup id (entries f (blocks db0) ++ blocks db) = Some c.
Proof.
  intros SS id c I M.
  assert (L : lookup id (entries f (blocks db0)) = Some c) by (apply lookup_in; [apply entries_sorted, SS|apply filter_In; split; [exact I|cbn [snd]; rewrite M; apply N.eqb_refl]]).
  revert L. generalize (entries f (blocks db0)). induction l as [|[i x] l IH]; cbn; [discriminate|]. destruct (id =? i)%N; [tauto|exact IH].
Qed.
(* reading on while blocks that were read already are removed: the reader does not notice *)
Theorem C91_reader bs tr0 s0 f content q buffer calls fuel : 0 < bs -> cruns bs start tr0 s0 -> reads_as bs (c_db s0) f content -> Permutation q (by_file f (c_db s0)) ->
  3 <= fuel -> Forall (fun x => 0 < snd x) calls ->
  let rs := exec fuel (opened bs buffer q) (map (fun x => (fst x, CRead (snd x))) calls) in
  (forall k db n, nth_error calls k = Some (db, n) -> unread_kept f (c_db s0) (read_so_far (firstn k rs)) db) ->
  behaves content 0 true (map (fun x => CRead (snd x)) calls) rs.
Proof.
  intros Hb R RA P Hf. pose proof (ci_wf _ _ (cinv_runs _ _ _ _ Hb (start_inv bs) R)) as W. destruct (opened_ok bs f (c_db s0) q buffer W P) as (K & H0).
  rewrite (reads_as_det _ _ _ _ W RA). change (data_of (entries f (blocks (c_db s0)))) with (concat (file_data (c_db s0) f)). set (ds := file_data (c_db s0) f) in *.
  assert (EB : c_blocks (opened bs buffer q) = for_file f (c_db s0)).
  { cbn. unfold for_file. rewrite (for_file_eq _ _ _ _ W P). symmetry. apply (for_file_eq bs), Permutation_refl. exact W. }
  assert (EBS : for_file f (c_db s0) = set_offsets 0 (map info_of (entries f (blocks (c_db s0))))) by (apply (for_file_eq bs), Permutation_refl; exact W).
  assert (FO : at_front (opened bs buffer q) \/ c_offset (opened bs buffer q) = 0) by (right; reflexivity).
  enough (G : forall sought c, ok c ds -> c_blocks c = for_file f (c_db s0) -> at_front c \/ c_offset c = 0 -> Forall (fun x => 0 < snd x) calls ->
    (forall k db n, nth_error calls k = Some (db, n) -> unread_kept f (c_db s0) (here c ds + read_so_far (firstn k (exec fuel c (map (fun x => (fst x, CRead (snd x))) calls)))) db) ->
    behaves (concat ds) (here c ds) sought (map (fun x => CRead (snd x)) calls) (exec fuel c (map (fun x => (fst x, CRead (snd x))) calls))).
  { intros Hc rs Hk. specialize (G true (opened bs buffer q) K EB FO Hc). rewrite H0 in G. apply G. exact Hk. }
  clear K EB FO H0.
  induction calls as [|[db n] calls IH]; intros sought c K EB FO Hc Hk; [constructor|]. inversion Hc as [|? ? Hn Hc']; subst. cbn [snd fst] in Hn. cbn [map exec fst snd] in *.
  set (db2 := FDb [] (entries f (blocks (c_db s0)) ++ blocks db)).
  assert (LK : forall id x, In (id, x) (blocks (c_db s0)) -> map_file_id x = f -> lookup id (blocks db2) = Some x) by (intros id x; apply lookup_entries; apply (wf_sorted _ _ W)).
  assert (St : stored db2 (c_blocks c) ds) by (eapply stored_of; [exact W|rewrite EB; exact EBS|reflexivity|exact LK]).
  destruct (read_agrees ds n db db2 Hn fuel c K St FO) as (RE & RF).
  { intros b Hb2 Hpos. pose proof (Hk 0 db n eq_refl b) as X. rewrite <- EB in X. cbn [firstn read_so_far fold_right] in X. rewrite (X Hb2 ltac:(lia)).
    symmetry. rewrite EB, EBS in Hb2. clear - Hb2 LK.
    assert (E : forall es o, In b (set_offsets o (map info_of es)) -> In (bi_id b, bi_rev b) es).
    { clear. induction es as [|p es IH]; intros o; cbn; [tauto|]. intros [<-|H]; [left; destruct p; reflexivity|right; eapply IH, H]. }
    apply E in Hb2. apply filter_In in Hb2 as (I & M). apply LK; [exact I|]. cbn [snd] in M. apply N.eqb_eq in M. exact M. }
  rewrite RE in *. destruct (read_spec db2 ds n fuel c Hn Hf K St) as (c' & out & E & K' & B' & _ & (R1 & R2 & R3) & HP & HE). rewrite E in *.
  apply b_read; [exact R1|exact R2|exact R3|]. rewrite <- HP. apply IH.
  - exact K'.
  - congruence.
  - destruct out as [|x out0] eqn:Eo; [right|left; eapply RF; [reflexivity|discriminate]]. specialize (HE eq_refl). destruct (ok_pos _ _ K') as [(L & _)|(_ & O)]; [lia|exact O].
  - exact Hc'.
  - intros k dbk nk Hn2. specialize (Hk (S k) dbk nk Hn2). cbn [firstn read_so_far fold_right] in Hk. fold (read_so_far (firstn k (exec fuel c' (map (fun x => (fst x, CRead (snd x))) calls)))) in Hk. rewrite HP. rewrite <- Nat.add_assoc. exact Hk.
Qed.

(* ================= what does not hold, and examples ================= *)
Lemma do_append bs db ps f d t db' : append bs d f t db = Done db' -> cstep bs (CS db ps) (Append f d) true (CS db' ps).
Proof. intros E. exact (k_append bs db ps f d t (Done db') E). Qed.
Lemma do_query bs db ps f w : cstep bs (CS db ps) (Query f w) true (CS db (ps ++ [Some (f, decide w (by_file f db))])).
Proof. apply k_query, Permutation_refl. Qed.
Lemma do_commit bs db ps i f ds db' : nth_error ps i = Some (Some (f, ds)) -> apply_deletes ds db = Done db' -> cstep bs (CS db ps) (Commit i f) true (CS db' (clear i ps)).
Proof. intros E A. exact (k_commit bs db ps i f ds (Done db') E A). Qed.
Lemma do_fail bs db ps i f ds e : nth_error ps i = Some (Some (f, ds)) -> apply_deletes ds db = Fail e -> cstep bs (CS db ps) (Commit i f) false (CS db (clear i ps)).
Proof. intros E A. exact (k_commit bs db ps i f ds (Fail e) E A). Qed.
Ltac go :=
  repeat match goal with
  | |- cruns _ _ [] _ => apply k_nil
  | |- cruns _ _ ((Append _ _, true) :: _) _ => eapply k_cons; [eapply do_append with (t := 5%Z); vm_compute; reflexivity|]
  | |- cruns _ _ ((Query _ _, true) :: _) _ => eapply k_cons; [apply do_query|]
  | |- cruns _ _ ((Commit _ _, true) :: _) _ => eapply k_cons; [eapply do_commit; vm_compute; reflexivity|]
  | |- cruns _ _ ((Commit _ _, false) :: _) _ => eapply k_cons; [eapply do_fail; vm_compute; reflexivity|]
  | |- cruns _ _ ((Documents, true) :: _) _ => eapply k_cons; [apply (k_documents _ empty_db [] ex_files); repeat constructor|]
  end.
Lemma read_of bs tr s f : 0 < bs -> cruns bs start tr s -> reads_as bs (c_db s) f (data_of (entries f (blocks (c_db s)))).
Proof. intros Hb R. apply reads_as_wf, (cinv_runs _ _ _ _ Hb (start_inv bs) R). Qed.
Lemma cruns_app bs a x b y c : cruns bs a x b -> cruns bs b y c -> cruns bs a (x ++ y) c.
Proof. intros R. induction R; cbn; [tauto|]. intros H2. econstructor; [eassumption|]. apply IHR, H2. Qed.

(* two clients truncating the same file to one byte, one at each end: both
   succeed and nothing is left, although each alone, in either order, leaves one byte *)
Theorem C91_two_sides_refuted : exists s,
  cruns 1 start [(Documents, true); (Append 0 [1;2]%N, true); (Query 0 (WTruncate 1 RemovingStart), true); (Query 0 (WTruncate 1 RemovingEnd), true); (Commit 0 0, true); (Commit 1 0, true)] s /\
  reads_as 1 (c_db s) 0 [].
Proof.
  eexists. assert (R : cruns 1 start [(Documents, true); (Append 0 [1;2]%N, true); (Query 0 (WTruncate 1 RemovingStart), true); (Query 0 (WTruncate 1 RemovingEnd), true); (Commit 0 0, true); (Commit 1 0, true)] _) by go.
  split; [exact R|]. exact (read_of 1 _ _ 0 ltac:(lia) R).
Qed.
(* a reader of one file is given the data of another: the last block of file 0 is
   removed after the reader was opened, and its id is used again for file 1 *)
Theorem C91_reader_other_file_refuted : exists s0 s1,
  cruns 2 start [(Documents, true); (Append 0 [1;2]%N, true)] s0 /\ reads_as 2 (c_db s0) 0 [1;2]%N /\
  cruns 2 s0 [(Query 0 (WTruncate 0 RemovingEnd), true); (Commit 0 0, true); (Append 1 [8;9]%N, true)] s1 /\
  exec 3 (opened 2 20 (by_file 0 (c_db s0))) [(c_db s1, CRead 9); (c_db s1, CRead 9)] = [RRead [8;9]; RRead []]%N.
Proof.
  eexists _, _. assert (R : cruns 2 start [(Documents, true); (Append 0 [1;2]%N, true)] _) by go.
  split; [exact R|]. split; [exact (read_of 2 _ _ 0 ltac:(lia) R)|]. split; [go|]. vm_compute. reflexivity.
Qed.
(* a reader that has not started when the first block is removed skips it, which
   is right, but then gives the last block twice *)
Theorem C91_reader_twice_refuted : exists s0 s1,
  cruns 2 start [(Documents, true); (Append 0 [1;2;3;4;5;6]%N, true)] s0 /\ reads_as 2 (c_db s0) 0 [1;2;3;4;5;6]%N /\
  cruns 2 s0 [(Query 0 (WTruncate 4 RemovingStart), true); (Commit 0 0, true)] s1 /\ reads_as 2 (c_db s1) 0 [3;4;5;6]%N /\
  exec 3 (opened 2 20 (by_file 0 (c_db s0))) (map (pair (c_db s1)) [CRead 9; CRead 9; CRead 9; CRead 9]) = [RRead [3;4]; RRead [5;6]; RRead [5;6]; RRead []]%N.
Proof.
  eexists _, _. assert (R : cruns 2 start [(Documents, true); (Append 0 [1;2;3;4;5;6]%N, true)] _) by go.
  split; [exact R|]. split; [exact (read_of 2 _ _ 0 ltac:(lia) R)|].
  match goal with |- cruns 2 ?s _ _ /\ _ => assert (R2 : cruns 2 s [(Query 0 (WTruncate 4 RemovingStart), true); (Commit 0 0, true)] _) by go end.
  split; [exact R2|]. split; [exact (read_of 2 _ _ 0 ltac:(lia) (cruns_app _ _ _ _ _ _ R R2))|]. vm_compute. reflexivity.
Qed.

(* two truncations from the end at once with an append in between: one fails *)
Definition ex_tr0 : list (cevent * bool) := [(Documents, true); (Append 0 [1;2;3;4]%N, true)].
Definition ex_tr : list (cevent * bool) := [(Query 0 (WTruncate 1 RemovingEnd), true); (Append 0 [5]%N, true); (Commit 1 0, true)].
Example C91_example : exists s0 s1 s2 s3, cruns 2 start ex_tr0 s0 /\ cstep 2 s0 (Query 0 (WTruncate 2 RemovingEnd)) true s1 /\ cruns 2 s1 ex_tr s2 /\
  cstep 2 s2 (Commit (length (c_plans s0)) 0) false s3 /\ idle 0 s0 /\ reads_as 2 (c_db s3) 0 [1;2;5]%N /\ trims 0 1 RemovingEnd ex_tr /\ removed_from 0 ex_tr = true.
Proof.
  eexists _, _, _, _. assert (R : cruns 2 start ex_tr0 _) by (unfold ex_tr0; go). split; [exact R|].
  split; [apply do_query|]. match goal with |- cruns 2 ?s _ _ /\ _ => assert (R2 : cruns 2 s ex_tr _) by (unfold ex_tr; go) end. split; [exact R2|].
  split; [eapply do_fail; vm_compute; reflexivity|]. split; [intros [|i] ds H; cbn in H; [discriminate H|destruct i; discriminate H]|].
  split; [exact (read_of 2 _ _ 0 ltac:(lia) (cruns_app _ _ _ _ _ _ R (k_cons _ _ _ _ _ _ _ (do_query _ _ _ _ _) R2)))|].
  split; [|reflexivity]. repeat constructor.
Qed.
(* a truncation from the end overlapping an append *)
Example C91_linear_example : exists s0 s1 s2 s3, cruns 2 start ex_tr0 s0 /\ cstep 2 s0 (Query 0 (WTruncate 2 RemovingEnd)) true s1 /\ cruns 2 s1 [(Append 0 [5]%N, true)] s2 /\
  cstep 2 s2 (Commit (length (c_plans s0)) 0) true s3 /\ removed_from 0 [(Append 0 [5]%N, true)] = false /\ blocks (c_db s3) <> blocks (c_db s2).
Proof.
  eexists _, _, _, _. split; [unfold ex_tr0; go|]. split; [apply do_query|]. split; [go|]. split; [eapply do_commit; vm_compute; reflexivity|]. split; [reflexivity|]. vm_compute. discriminate.
Qed.
(* a follower: it has read the first block when that block is removed *)
Example C91_reader_example : exists s0 s1,
  cruns 2 start [(Documents, true); (Append 0 [1;2;3;4;5;6]%N, true)] s0 /\
  cruns 2 s0 [(Query 0 (WTruncate 4 RemovingStart), true); (Commit 0 0, true)] s1 /\
  (let rs := exec 3 (opened 2 2 (by_file 0 (c_db s0))) (map (fun x => (fst x, CRead (snd x))) [(c_db s0, 9); (c_db s1, 9)]) in
   rs = [RRead [1;2]; RRead [3;4]]%N /\ forall k db n, nth_error [(c_db s0, 9); (c_db s1, 9)] k = Some (db, n) -> unread_kept 0 (c_db s0) (read_so_far (firstn k rs)) db) /\
  ~ unread_kept 0 (c_db s0) 0 (c_db s1).
Proof.
  eexists _, _. split; [go|]. split; [go|]. cbv zeta. split.
  - match goal with |- ?r = _ /\ _ => remember r as rs eqn:E; vm_compute in E; subst rs end. split; [reflexivity|].
    intros [|[|k]] db n H; cbn [nth_error] in H; try (injection H as <- <-).
    + intros b Hb _. vm_compute in Hb. destruct Hb as [<-|[<-|[<-|[]]]]; vm_compute; reflexivity.
    + intros b Hb Hp. vm_compute in Hb. destruct Hb as [<-|[<-|[<-|[]]]]; [exfalso; cbn in Hp; lia| |]; vm_compute; reflexivity.
    + destruct k; discriminate H.
  - intros H. specialize (H _ (or_introl eq_refl)). vm_compute in H. specialize (H ltac:(lia)). discriminate H.
Qed.
Print Assumptions C91_order.
Print Assumptions C91_call.
Print Assumptions C91_linearizable.
Print Assumptions C91_trimming.
Print Assumptions C91_reader.
Print Assumptions C91_two_sides_refuted.
Print Assumptions C91_reader_other_file_refuted.
Print Assumptions C91_reader_twice_refuted.
