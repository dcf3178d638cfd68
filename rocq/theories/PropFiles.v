(* C45, C46, C47, C50, C57: files stored as blocks (bonsaidb-files). *)
From Verif Require Import Base Key KeyProofs Files FilesProofs FilesRead.
From Coq Require Import Permutation Sorted ZifyBool.
Local Open Scope nat_scope.

(* ================= specification ================= *)
(* What happened to the database, in the order of the transactions. A call that
   fails changes nothing and is not listed. FilesChanged is any change to the
   file documents (create, move, rename, delete). *)
Inductive event :=
| Appended (f : N) (data : bytes)
| Truncated (f : N) (n : nat) (side : truncate_from)
| BlocksDeleted (f : N)
| FilesChanged.
Inductive step (bs : nat) : fdb -> event -> fdb -> Prop :=
| s_append db f d t db' : append bs d f t db = Done db' -> step bs db (Appended f d) db'
| s_truncate db f q n side db' : Permutation q (by_file f db) ->
    apply_deletes (truncate_ops (for_file_of q) n side) db = Done db' -> step bs db (Truncated f n side) db'
| s_delete db f q db' : Permutation q (by_file f db) -> apply_deletes q db = Done db' -> step bs db (BlocksDeleted f) db'
| s_files db l : Forall (fun id => (id < u32_mod)%N) (map fst l) -> step bs db FilesChanged (FDb l (blocks db)).
Inductive runs (bs : nat) : fdb -> list event -> fdb -> Prop :=
| r_nil db : runs bs db [] db
| r_cons db e db1 r db2 : step bs db e db1 -> runs bs db1 r db2 -> runs bs db (e :: r) db2.
Definition empty_db : fdb := FDb [] [].

(* what the contents of file f are after events, from contents c. [truncated]
   (FilesProofs) says: a suffix (prefix) of the old contents; unchanged if not
   longer than n; otherwise at least n and less than n + block size bytes; empty
   for n = 0. *)
Definition about (e : event) : option N :=
  match e with Appended f _ => Some f | Truncated f _ _ => Some f | BlocksDeleted f => Some f | FilesChanged => None end.
Inductive content_after (bs : nat) (f : N) : bytes -> list event -> bytes -> Prop :=
| ca_nil c : content_after bs f c [] c
| ca_append c d r c' : content_after bs f (c ++ d) r c' -> content_after bs f c (Appended f d :: r) c'
| ca_truncate c n side c1 r c' : truncated bs n side c c1 -> content_after bs f c1 r c' -> content_after bs f c (Truncated f n side :: r) c'
| ca_delete c r c' : content_after bs f [] r c' -> content_after bs f c (BlocksDeleted f :: r) c'
| ca_other c e r c' : about e <> Some f -> content_after bs f c r c' -> content_after bs f c (e :: r) c'.

(* std::io::Read::read_to_end: calls read until it returns no bytes; sizes k is
   the length of the buffer passed to the k-th call. None: not finished within
   the given number of calls. *)
Fixpoint read_to_end (calls fuel : nat) (sizes : nat -> nat) (db : fdb) (c : contents) : outcome (option bytes) ferr :=
  match calls with
  | O => Done None
  | S k =>
      match read fuel (sizes O) db c with
      | Done (Some (_, [])) => Done (Some [])
      | Done (Some (c', l)) =>
          match read_to_end k fuel (fun i => sizes (S i)) db c' with
          | Done (Some r) => Done (Some (l ++ r))
          | o => o
          end
      | Done None => Done None
      | Fail e => Fail e
      | Panic => Panic
      end
  end.
(* opening the file on any order of the view's mappings, with any buffer size *)
Definition opened (bs buffer : nat) (q : list block_info) : contents := with_buffer_size buffer (open_contents bs (for_file_of q)).
(* the file reads as [content] *)
Definition reads_as (bs : nat) (db : fdb) (f : N) (content : bytes) : Prop :=
  forall q buffer, Permutation q (by_file f db) ->
    contents_len (opened bs buffer q) = length content /\ fst (summary f db) = length content /\
    forall sizes, (forall k, 0 < sizes k) ->
    exists enough, forall calls fuel, enough <= calls -> 3 <= fuel ->
      read_to_end calls fuel sizes db (opened bs buffer q) = Done (Some content).

(* ================= proofs ================= *)
Lemma wf_empty bs : wf bs empty_db.
Proof. constructor; constructor. Qed.
Definition file_data (db : fdb) (f : N) : list bytes := map (fun p => payload (snd p)) (entries f (blocks db)).
Lemma laid_of bs es : Forall (good_block bs) (map snd es) -> forall o, laid o (set_offsets o (map info_of es)) (map (fun p => payload (snd p)) es).
Proof.
  induction es as [|p r IH]; cbn; intros F o; [constructor|]. inversion F as [|? ? F1 F2]; subst. destruct (payload_length _ _ F1) as (PL & P0).
  constructor; cbn; [reflexivity|congruence|lia|]. rewrite PL. apply IH, F2.
Qed.
Lemma stored_of bs f db db' l ds : wf bs db -> l = set_offsets 0 (map info_of (entries f (blocks db))) -> ds = file_data db f ->
  (forall id c, In (id, c) (blocks db) -> map_file_id c = f -> lookup id (blocks db') = Some c) -> stored db' l ds.
Proof.
  intros W -> -> H. split.
  - unfold file_data.
    assert (E : forall es o, (forall p, In p es -> lookup (fst p) (blocks db') = Some (snd p)) ->
      Forall2 (fun b d => exists c, lookup (bi_id b) (blocks db') = Some c /\ firstn (length c - 12) c = d) (set_offsets o (map info_of es)) (map (fun p => payload (snd p)) es)).
    { clear. induction es as [|p r IH]; intros o H; cbn; constructor; [|apply IH; intros; apply H; right; assumption].
      cbn. exists (snd p). split; [apply H; left; reflexivity|reflexivity]. }
    apply E. intros [i c] Hp. unfold entries in Hp. apply filter_In in Hp as (I & M). apply N.eqb_eq in M. cbn. apply H; assumption.
  - pose proof (infos_sorted _ (entries_sorted f _ (wf_sorted _ _ W))) as S. unfold id_sorted in S.
    pose proof (set_offsets_same (map info_of (entries f (blocks db))) 0) as F2. revert S F2. generalize (set_offsets 0 (map info_of (entries f (blocks db)))). generalize (map info_of (entries f (blocks db))).
    intros a b S F2. revert S. induction F2 as [|x y b a (E1 & E2 & E3 & E4) F2 IH]; intros S; constructor; inversion S as [|? ? S1 S2]; subst; [apply IH; assumption|].
    clear IH S S1. induction F2 as [|x' y' b a (D1 & D2 & D3 & D4) F2 IH]; constructor; inversion S2; subst; [lia|apply IH; assumption].
Qed.
Lemma stored_self bs f db q : wf bs db -> Permutation q (by_file f db) -> stored db (for_file_of q) (file_data db f).
Proof.
  intros W P. eapply stored_of; [exact W|exact (for_file_eq _ _ _ _ W P)|reflexivity|]. intros id c I _. apply lookup_in; [apply (wf_sorted _ _ W)|exact I].
Qed.
Lemma opened_ok bs f db q buffer : wf bs db -> Permutation q (by_file f db) -> ok (opened bs buffer q) (file_data db f) /\ here (opened bs buffer q) (file_data db f) = 0.
Proof.
  intros W P. split; [|reflexivity]. unfold opened. rewrite (for_file_eq _ _ _ _ W P).
  assert (L : laid 0 (set_offsets 0 (map info_of (entries f (blocks db)))) (file_data db f)) by (eapply laid_of, entries_good, W).
  constructor; cbn; [exact L|exists 0, 0; reflexivity|]. pose proof (laid_nonempty _ _ _ L) as F. destruct (file_data db f) as [|d r]; [right; split; reflexivity|]. left. split; [cbn; lia|].
  exists d. split; [reflexivity|lia].
Qed.
Lemma read_to_end_spec db ds : forall m sizes c, length (concat ds) - here c ds < m -> (forall k, 0 < sizes k) -> ok c ds -> stored db (c_blocks c) ds ->
  forall calls fuel, m <= calls -> 3 <= fuel -> read_to_end calls fuel sizes db c = Done (Some (skipn (here c ds) (concat ds))).
Proof.
  induction m as [|m IH]; intros sizes c Hm Hs K St calls fuel Hc Hf; [lia|]. destruct calls as [|k]; [lia|]. cbn [read_to_end].
  destruct (read_spec db ds (sizes 0) fuel c (Hs 0) Hf K St) as (c' & out & -> & K' & B & _ & (R1 & R2 & R3) & R4 & R5).
  pose proof (here_le _ _ K) as HL. destruct out as [|x out'] eqn:Eo.
  - rewrite (proj1 R3 eq_refl), skipn_all. reflexivity.
  - rewrite <- Eo in *. assert (0 < length out) by (subst out; cbn; lia). pose proof (here_le _ _ K') as HL'.
    rewrite (IH (fun i => sizes (S i)) c' ltac:(lia) (fun k => Hs (S k)) K' ltac:(rewrite B; exact St) k fuel ltac:(lia) Hf).
    rewrite R4. rewrite <- skipn_skipn'. do 2 f_equal. rewrite R1 at 1. apply firstn_skipn.
Qed.
Lemma reads_as_wf bs db f : wf bs db -> reads_as bs db f (data_of (entries f (blocks db))).
Proof.
  intros W q buffer P. destruct (opened_ok bs f db q buffer W P) as (K & H). change (data_of (entries f (blocks db))) with (concat (file_data db f)). split; [|split].
  - eapply laid_len; [apply K|reflexivity].
  - unfold summary. cbn [fst]. rewrite by_file_eq. exact (total_data _ _ (entries_good _ f _ W)).
  - intros sizes Hs. exists (S (length (concat (file_data db f)))). intros calls fuel Hc Hf.
    rewrite (read_to_end_spec db (file_data db f) (S (length (concat (file_data db f)))) sizes _ ltac:(lia) Hs K); [rewrite H; reflexivity| |exact Hc|exact Hf].
    cbn. eapply stored_self; eassumption.
Qed.
Lemma step_spec bs db e db' : 0 < bs -> wf bs db -> step bs db e db' -> wf bs db' /\
  forall f, about e <> Some f -> data_of (entries f (blocks db')) = data_of (entries f (blocks db)).
Proof.
  intros Hb W S. destruct S as [db g d t db' A|db g q n side db' P A|db g q db' P A|db l F].
  - destruct (append_spec bs d g t db db' Hb W A) as (W' & _ & D). split; [exact W'|]. intros f N. rewrite D. destruct (N.eqb_spec f g); [subst; cbn in N; congruence|]. apply app_nil_r.
  - destruct (truncate_spec bs g n side db q Hb W P) as (db2 & A2 & W' & _ & O & _). rewrite A in A2. injection A2 as <-. split; [exact W'|]. intros f N. rewrite O; [reflexivity|]. intros ->. cbn in N. congruence.
  - destruct (delete_for_file_spec bs g db q W P) as (db2 & A2 & W' & _ & O & _). rewrite A in A2. injection A2 as <-. split; [exact W'|]. intros f N. rewrite O; [reflexivity|]. intros ->. cbn in N. congruence.
  - split; [|reflexivity]. constructor; cbn; [apply (wf_sorted _ _ W)|apply (wf_blocks _ _ W)|exact F].
Qed.
Lemma runs_wf bs db es db' : 0 < bs -> wf bs db -> runs bs db es db' -> wf bs db'.
Proof. intros Hb W R. induction R as [|db e db1 r db2 S R IH]; [exact W|]. apply IH. eapply step_spec; eassumption. Qed.
Lemma runs_content bs f db es db' : 0 < bs -> wf bs db -> runs bs db es db' ->
  content_after bs f (data_of (entries f (blocks db))) es (data_of (entries f (blocks db'))).
Proof.
  intros Hb W R. induction R as [|db e db1 r db2 S R IH]; [constructor|]. destruct (step_spec _ _ _ _ Hb W S) as (W1 & O1). specialize (IH W1).
  assert (D : about e = Some f \/ about e <> Some f) by (destruct (about e) as [g|]; [destruct (N.eq_dec g f); [left|right]; congruence|right; discriminate]).
  destruct D as [D|D]; [|apply ca_other; [exact D|]; rewrite <- (O1 _ D); exact IH].
  destruct S as [db g d t db1 A|db g q n side db1 P A|db g q db1 P A|db l F]; cbn in D; try discriminate; injection D as ->.
  - constructor. destruct (append_spec bs d f t db db1 Hb W A) as (_ & _ & E). specialize (E f). rewrite N.eqb_refl in E. rewrite <- E. exact IH.
  - destruct (truncate_spec bs f n side db q Hb W P) as (db3 & A2 & _ & _ & _ & T). rewrite A in A2. injection A2 as <-. econstructor; [exact T|exact IH].
  - destruct (delete_for_file_spec bs f db q W P) as (db3 & A2 & _ & _ & _ & T). rewrite A in A2. injection A2 as <-. constructor. rewrite T in IH. exact IH.
Qed.

(* ================= C45 ================= *)
Theorem C45_contents bs es db f : 0 < bs -> runs bs empty_db es db ->
  exists content, content_after bs f [] es content /\ reads_as bs db f content.
Proof.
  intros Hb R. exists (data_of (entries f (blocks db))). split.
  - exact (runs_content bs f _ _ _ Hb (wf_empty bs) R).
  - apply reads_as_wf. eapply runs_wf; [exact Hb|apply wf_empty|exact R].
Qed.
(* with appends only: the concatenation of what was appended to this file *)
Definition appended_to (f : N) (e : event) : bytes := match e with Appended g d => if (g =? f)%N then d else [] | _ => [] end.
Definition only_appends (e : event) : Prop := match e with Appended _ _ => True | FilesChanged => True | _ => False end.
Theorem C45_appends bs es db f : 0 < bs -> runs bs empty_db es db -> Forall only_appends es ->
  reads_as bs db f (concat (map (appended_to f) es)).
Proof.
  intros Hb R F. destruct (C45_contents bs es db f Hb R) as (c & CA & RA).
  replace (concat (map (appended_to f) es)) with c; [exact RA|]. clear RA R. change (concat (map (appended_to f) es)) with ([] ++ concat (map (appended_to f) es)).
  revert CA. generalize (@nil N). induction es as [|e r IH]; intros s CA.
  - inversion CA; subst. cbn. rewrite app_nil_r. reflexivity.
  - inversion F as [|? ? F1 F2]; subst. inversion CA as [|? ? ? ? CA'|? ? ? ? ? ? T CA'|? ? ? CA'|? ? ? ? NA CA']; subst; cbn in F1; try contradiction.
    + cbn [map concat appended_to]. rewrite N.eqb_refl, app_assoc. apply IH; assumption.
    + cbn [map concat]. replace (appended_to f e) with (@nil N); [apply IH; assumption|]. destruct e as [g d| | |]; try contradiction; [|reflexivity]. cbn. destruct (N.eqb_spec g f); [subst; cbn in NA; congruence|reflexivity].
Qed.
(* an append to an existing file succeeds (until the block ids run out) *)
Lemma insert_blocks_ok (bl : list bytes) : forall (l : list (N * bytes)), (match last_id l with None => N.of_nat (length bl) < u64_mod | Some n => n + N.of_nat (length bl) < u64_mod end)%N ->
  exists l', insert_blocks bl l = Some l'.
Proof.
  induction bl as [|b r IH]; intros l H; cbn [insert_blocks]; [eexists; reflexivity|].
  destruct (last_id l) as [n|] eqn:E; cbn [next_id length] in *.
  - destruct (N.ltb_spec (n + 1) u64_mod); [|lia]. apply IH. rewrite last_id_app. cbn [fst]. lia.
  - apply IH. rewrite last_id_app. cbn [fst]. lia.
Qed.
Theorem C45_append_succeeds bs es db f fl data t : 0 < bs -> runs bs empty_db es db -> lookup f (files db) = Some fl ->
  (match last_id (blocks db) with None => 0 | Some n => n end + N.of_nat (length data) < u64_mod)%N ->
  exists db', append bs data f t db = Done db' /\ step bs db (Appended f data) db'.
Proof.
  intros Hb R L H.
  assert (A : exists db', append bs data f t db = Done db').
  { unfold append. destruct data as [|x r] eqn:ED; [eexists; reflexivity|]. rewrite <- ED in *. destruct bs as [|bs']; [lia|]. rewrite L.
    assert (CL : (length (map (fun c => block_bytes c f t) (chunks (S bs') data)) <= length data)).
    { rewrite List.map_length. rewrite <- (chunks_concat (S bs') data) at 2 by lia. pose proof (chunks_aux_ok (S bs') (length data) data ltac:(lia)) as F. fold (chunks (S bs') data) in F.
      induction F as [|c r' Fc F IH]; cbn; [lia|]. rewrite app_length. lia. }
    destruct (insert_blocks_ok (map (fun c => block_bytes c f t) (chunks (S bs') data)) (blocks db)) as (l' & E); [|rewrite E; eexists; reflexivity].
    destruct (last_id (blocks db)); lia. }
  destruct A as (db' & A). exists db'. split; [exact A|]. econstructor; exact A.
Qed.
Definition ex_files : list (N * file) := [(0%N, File None [97%N]); (1%N, File None [98%N])].
Example C45_example : exists db, runs 2 empty_db [FilesChanged; Appended 0 [1;2;3;4;5]%N; Appended 1 [9]%N; Truncated 0 2 RemovingStart; Appended 0 [6;7]%N] db /\
  lookup 0%N (files db) <> None /\ length (blocks db) = 4 /\ (* 3,4 | 5 | 9 | 6,7 without the truncated first block *)
  read_to_end 10 3 (fun _ => 3) db (opened 2 3 (rev (by_file 0 db))) = Done (Some [3;4;5;6;7]%N).
Proof.
  eexists. split.
  - econstructor; [apply (s_files 2 empty_db ex_files); repeat constructor|].
    econstructor; [eapply s_append with (t := 5%Z); vm_compute; reflexivity|].
    econstructor; [eapply s_append with (t := 6%Z); vm_compute; reflexivity|].
    econstructor; [eapply s_truncate; [apply Permutation_refl|vm_compute; reflexivity]|].
    econstructor; [eapply s_append with (t := 7%Z); vm_compute; reflexivity|]. constructor.
  - vm_compute. repeat split. discriminate.
Qed.

(* the time of the last append (Stats::last_appended_at): the newest of the times of the
   appends whose data is still there *)
Lemma newest_app (a b : list block_info) :
  fold_right (fun b a => match a with None => Some (bi_time b) | Some t => Some (Z.max (bi_time b) t) end) None (a ++ b) =
  match fold_right (fun b a => match a with None => Some (bi_time b) | Some t => Some (Z.max (bi_time b) t) end) None a,
        fold_right (fun b a => match a with None => Some (bi_time b) | Some t => Some (Z.max (bi_time b) t) end) None b with
  | None, y => y | x, None => x | Some x, Some y => Some (Z.max x y)
  end.
Proof.
  induction a as [|x a IH]; cbn [app fold_right]; [reflexivity|]. rewrite IH.
  destruct (fold_right _ None a) as [u|], (fold_right _ None b) as [v|]; cbn; f_equal; lia.
Qed.
Lemma newest_new f g t (new : list (N * bytes)) cs : (g < u32_mod)%N -> (i64_min <= t <= i64_max)%Z -> map snd new = map (fun c => block_bytes c g t) cs -> new <> [] ->
  fold_right (fun b a => match a with None => Some (bi_time b) | Some t => Some (Z.max (bi_time b) t) end) None (map info_of (entries f new)) =
  if (f =? g)%N then Some t else None.
Proof.
  intros Hg Ht. revert cs; induction new as [|[i b] r IH]; intros cs M NE; [congruence|]. destruct cs as [|c cs]; [discriminate|].
  cbn in M. injection M as -> M. cbn [entries filter snd]. rewrite block_file_id by exact Hg. fold (entries f r). rewrite N.eqb_sym.
  destruct r as [|y r'].
  - cbn [entries filter]. destruct (f =? g)%N; [|reflexivity]. cbn [map fold_right info_of bi_time snd]. rewrite block_timestamp by exact Ht. reflexivity.
  - specialize (IH cs M ltac:(discriminate)). destruct (f =? g)%N; [|exact IH].
    cbn [map fold_right]. rewrite IH. cbn [info_of bi_time snd]. rewrite block_timestamp by exact Ht. f_equal. lia.
Qed.
Theorem C45_last_appended bs es db f data t db' : 0 < bs -> runs bs empty_db es db -> (i64_min <= t <= i64_max)%Z -> data <> [] ->
  append bs data f t db = Done db' ->
  snd (summary f db') = Some (match snd (summary f db) with None => t | Some u => Z.max u t end) /\
  forall g, g <> f -> snd (summary g db') = snd (summary g db).
Proof.
  intros Hb R Ht NE A. assert (W := runs_wf _ _ _ _ Hb (wf_empty bs) R). unfold append in A. destruct data as [|x r] eqn:ED; [congruence|]. rewrite <- ED in *.
  destruct bs as [|bs']; [lia|]. set (bs := S bs') in *. destruct (lookup f (files db)) as [fl|] eqn:L; [|discriminate].
  destruct (insert_blocks _ _) as [l|] eqn:I; [|discriminate]. injection A as <-.
  assert (Hg : (f < u32_mod)%N).
  { pose proof (wf_files _ _ W) as F. revert L F. generalize (files db). clear. induction l as [|[i a] r IH]; cbn; [discriminate|].
    destruct (N.eqb_spec f i) as [->|]; intros H F; inversion F; subst; auto. }
  destruct (insert_blocks_spec _ _ _ (wf_sorted _ _ W) I) as (new & -> & M & S2).
  assert (NN : new <> []).
  { intros ->. cbn in M. symmetry in M. apply map_eq_nil in M. pose proof (chunks_concat bs data Hb) as C. rewrite M in C. cbn in C. congruence. }
  unfold summary. cbn [snd]. rewrite !by_file_eq. cbn [blocks]. rewrite entries_app, map_app, newest_app, (newest_new f f t new _ Hg Ht M NN), N.eqb_refl. split.
  - destruct (fold_right _ None (map info_of (entries f (blocks db)))); reflexivity.
  - intros g Ng. rewrite ?by_file_eq. cbn [blocks]. rewrite entries_app, map_app, newest_app, (newest_new g f t new _ Hg Ht M NN).
    destruct (N.eqb_spec g f); [congruence|]. destruct (fold_right _ None (map info_of (entries g (blocks db)))); reflexivity.
Qed.
(* there is no time exactly for an empty file; otherwise it is the newest of its blocks *)
Theorem C45_newest_time bs es db f : 0 < bs -> runs bs empty_db es db ->
  match snd (summary f db) with
  | None => reads_as bs db f []
  | Some t => fst (summary f db) <> 0 /\ (exists b, In b (by_file f db) /\ bi_time b = t) /\ forall b, In b (by_file f db) -> (bi_time b <= t)%Z
  end.
Proof.
  intros Hb R. assert (W := runs_wf _ _ _ _ Hb (wf_empty bs) R). pose proof (reads_as_wf bs db f W) as RA.
  assert (G : match snd (summary f db) with None => by_file f db = [] | Some t => by_file f db <> [] /\ (exists b, In b (by_file f db) /\ bi_time b = t) /\ forall b, In b (by_file f db) -> (bi_time b <= t)%Z end).
  { unfold summary. cbn [snd]. generalize (by_file f db) as l. clear. induction l as [|b l IH]; cbn [fold_right]; [reflexivity|].
    destruct (fold_right _ None l) as [t|].
    - destruct IH as (_ & (b0 & I & E) & M). split; [discriminate|]. split.
      + destruct (Z.max_spec (bi_time b) t) as [[_ ->]|[_ ->]]; [exists b0; split; [right; exact I|exact E]|exists b; split; [left; reflexivity|reflexivity]].
      + intros c [<-|J]; [lia|]. specialize (M c J). lia.
    - subst l. split; [discriminate|]. split; [exists b; split; [left; reflexivity|reflexivity]|]. intros c [<-|[]]. lia. }
  destruct (snd (summary f db)) as [t|].
  - destruct G as (NE & G). split; [|exact G]. unfold summary. cbn [fst]. rewrite by_file_eq in *. intros Z0.
    apply NE. change (total (map info_of (entries f (blocks db))) = 0) in Z0. rewrite (total_data _ _ (entries_good _ f _ W)) in Z0.
    rewrite (data_of_nil_total _ _ (entries_good _ f _ W) Z0). reflexivity.
  - rewrite by_file_eq in G. apply map_eq_nil in G. rewrite G in RA. exact RA.
Qed.
Example C45_time_ex : exists db, append 2 [1;2;3]%N 0 7%Z (FDb ex_files []) = Done db /\ summary 0 db = (3, Some 7%Z) /\ summary 1 db = (0, None).
Proof. eexists. split; [vm_compute; reflexivity|]. split; vm_compute; reflexivity. Qed.

(* ================= C46 ================= *)
Theorem C46_truncate bs es db f n side q : 0 < bs -> runs bs empty_db es db -> Permutation q (by_file f db) ->
  exists db' c c', apply_deletes (truncate_ops (for_file_of q) n side) db = Done db' /\
    reads_as bs db f c /\ reads_as bs db' f c' /\
    match side with RemovingStart => exists gone, c = gone ++ c' | RemovingEnd => exists gone, c = c' ++ gone end /\
    (length c <= n -> c' = c) /\ (n < length c -> n <= length c' < n + bs) /\ (n = 0 -> c' = []) /\
    files db' = files db /\ forall g d, g <> f -> reads_as bs db g d -> reads_as bs db' g d.
Proof.
  intros Hb R P. assert (W := runs_wf _ _ _ _ Hb (wf_empty bs) R).
  destruct (truncate_spec bs f n side db q Hb W P) as (db' & A & W' & Fi & O & (T1 & T2 & T3 & T4)).
  exists db', (data_of (entries f (blocks db))), (data_of (entries f (blocks db'))).
  split; [exact A|]. split; [apply reads_as_wf, W|]. split; [apply reads_as_wf, W'|]. repeat (split; [assumption|]).
  intros g d N RA. replace d with (data_of (entries g (blocks db))).
  - rewrite <- (O _ N). apply reads_as_wf, W'.
  - destruct (RA (by_file g db) 0 (Permutation_refl _)) as (_ & _ & RE). destruct (RE (fun _ => 1) ltac:(intros; cbn; lia)) as (m1 & E1).
    destruct (reads_as_wf bs db g W (by_file g db) 0 (Permutation_refl _)) as (_ & _ & RE2). destruct (RE2 (fun _ => 1) ltac:(intros; cbn; lia)) as (m2 & E2).
    specialize (E1 (m1 + m2) 3 ltac:(lia) ltac:(lia)). specialize (E2 (m1 + m2) 3 ltac:(lia) ltac:(lia)). rewrite E1 in E2. congruence.
Qed.
(* the same of truncate itself, which reads the block list and deletes with nothing in between *)
Theorem C46_truncate_file bs es db f n side : 0 < bs -> runs bs empty_db es db ->
  exists db' c c', truncate f n side db = Done db' /\ reads_as bs db f c /\ reads_as bs db' f c' /\
    match side with RemovingStart => exists gone, c = gone ++ c' | RemovingEnd => exists gone, c = c' ++ gone end /\
    (length c <= n -> c' = c) /\ (n < length c -> n <= length c' < n + bs) /\ (n = 0 -> c' = []) /\
    files db' = files db /\ forall g d, g <> f -> reads_as bs db g d -> reads_as bs db' g d.
Proof. intros Hb R. exact (C46_truncate bs es db f n side (by_file f db) Hb R (Permutation_refl _)). Qed.
(* two transactions: a truncation that read the block list before another client
   appended deletes the blocks it chose from the middle of the file: "only from
   the chosen side" fails *)
Theorem C46_concurrent_append_refuted : exists db db1 db2,
  runs 1 empty_db [FilesChanged; Appended 0 [1;2]%N] db /\
  append 1 [3]%N 0 9%Z db = Done db1 /\
  apply_deletes (truncate_ops (for_file 0 db) 1 RemovingEnd) db1 = Done db2 /\
  read_to_end 9 3 (fun _ => 9) db2 (opened 1 9 (by_file 0 db2)) = Done (Some [1;3]%N).
Proof.
  eexists _, _, _. split.
  - econstructor; [apply (s_files 1 empty_db ex_files); repeat constructor|].
    econstructor; [eapply s_append with (t := 5%Z); vm_compute; reflexivity|]. constructor.
  - split; [vm_compute; reflexivity|]. split; [vm_compute; reflexivity|]. vm_compute. reflexivity.
Qed.
Definition ex_db1 : fdb := match append 3 [1;2;3;4;5;6;7]%N 0 5%Z (FDb ex_files []) with Done d => d | _ => empty_db end.
Definition ex_db2 : fdb := match truncate 0 5 RemovingEnd ex_db1 with Done d => d | _ => empty_db end.
Example C46_example : runs 3 empty_db [FilesChanged; Appended 0 [1;2;3;4;5;6;7]%N] ex_db1 /\
  truncate 0 5 RemovingEnd ex_db1 = Done ex_db2 /\ read_to_end 9 3 (fun _ => 4) ex_db2 (opened 3 0 (by_file 0 ex_db2)) = Done (Some [1;2;3;4;5;6]%N).
Proof.
  split; [|split; vm_compute; reflexivity].
  apply r_cons with (db1 := FDb ex_files []); [apply (s_files 3 empty_db ex_files); repeat constructor|].
  apply r_cons with (db1 := ex_db1); [apply s_append with (t := 5%Z); vm_compute; reflexivity|]. constructor.
Qed.
Print Assumptions C45_contents.
Print Assumptions C45_appends.
Print Assumptions C45_append_succeeds.
Print Assumptions C45_last_appended.
Print Assumptions C45_newest_time.
Print Assumptions C46_truncate.
Print Assumptions C46_truncate_file.
Print Assumptions C46_concurrent_append_refuted.
