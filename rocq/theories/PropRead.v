(* C47: reading and seeking in an open file, against an abstract file handle. *)
From Verif Require Import Base Key KeyProofs Files FilesProofs FilesRead PropFiles.
From Coq Require Import Permutation Sorted ZifyBool.
Local Open Scope nat_scope.

(* ================= specification: a position in a byte string ================= *)
Inductive command :=
| CRead (n : nat)          (* Read::read with a buffer of n bytes *)
| CNext                    (* Iterator::next: the next block *)
| CSeek (s : seek_from)
| CBuffer (n : nat)        (* with_buffer_size *)
| CClone.                  (* clone, and continue with the clone *)
Inductive result := RRead (l : bytes) | RNext (l : option bytes) | RSeek (p : nat) | RUnit | RPanic | RHangs.
(* the position (in bytes) a seek asks for, possibly before the start *)
Definition target (len pos : nat) (s : seek_from) : Z :=
  match s with
  | SeekStart n => Z.of_nat n
  | SeekEnd z => Z.of_nat len + Z.min z 0
  | SeekCurrent z => Z.of_nat pos + z
  end.
Definition relative (s : seek_from) : bool := match s with SeekCurrent _ => true | _ => false end.
(* seeks that may panic: before the start; relative ones after the end was hit by
   reading; beyond the range of i64 *)
Definition unsafe (len pos : nat) (sought : bool) (s : seek_from) : Prop :=
  len <> 0 /\ relative s = true /\ (pos = len /\ sought = false) \/
  (target len pos s < 0)%Z \/
  relative s = true /\ (i64_max < target len pos s)%Z.
(* what the calls may answer from position [pos]; [sought]: the last call that
   moved was a seek (or there was none) *)
Inductive behaves (content : bytes) : nat -> bool -> list command -> list result -> Prop :=
| b_nil pos sought : behaves content pos sought [] []
| b_read pos sought n out cs rs :
    out = firstn (length out) (skipn pos content) -> length out <= n -> (out = [] <-> pos = length content) ->
    behaves content (pos + length out) false cs rs ->
    behaves content pos sought (CRead n :: cs) (RRead out :: rs)
| b_next pos sought out cs rs :
    out = firstn (length out) (skipn pos content) ->
    behaves content (pos + length out) false cs rs ->
    behaves content pos sought (CNext :: cs) (RNext (Some out) :: rs)
| b_next_end sought cs rs :
    behaves content (length content) false cs rs ->
    behaves content (length content) sought (CNext :: cs) (RNext None :: rs)
| b_seek pos sought s p cs rs :
    p = Z.to_nat (Z.min (target (length content) pos s) (Z.of_nat (length content))) -> ((0 <= target (length content) pos s)%Z \/ length content = 0) ->
    behaves content p true cs rs ->
    behaves content pos sought (CSeek s :: cs) (RSeek p :: rs)
| b_seek_panic pos sought s cs : unsafe (length content) pos sought s -> behaves content pos sought (CSeek s :: cs) [RPanic]
| b_unit pos sought cs rs c : (match c with CBuffer _ => True | CClone => True | _ => False end) ->
    behaves content pos sought cs rs -> behaves content pos sought (c :: cs) (RUnit :: rs).

(* running the model: each call sees its own database state; stops at a panic *)
Fixpoint exec (fuel : nat) (c : contents) (cs : list (fdb * command)) : list result :=
  match cs with
  | [] => []
  | (db, cmd) :: r =>
      match cmd with
      | CRead n =>
          match read fuel n db c with Done (Some (c', l)) => RRead l :: exec fuel c' r | Done None => [RHangs] | _ => [RPanic] end
      | CNext =>
          match next_block fuel db c with Done (Some (c', l)) => RNext l :: exec fuel c' r | Done None => [RHangs] | _ => [RPanic] end
      | CSeek s =>
          match seek s c with Done (c', p) => RSeek p :: exec fuel c' r | _ => [RPanic] end
      | CBuffer n => RUnit :: exec fuel (with_buffer_size n c) r
      | CClone => RUnit :: exec fuel (clone_contents c) r
      end
  end.
(* the blocks of file f in db are still there in db' (others may have been
   added, deleted, ...) *)
Definition keeps (f : N) (db db' : fdb) : Prop :=
  forall id c, In (id, c) (blocks db) -> map_file_id c = f -> lookup id (blocks db') = Some c.
(* buffers are not empty, offsets are i64 *)
Definition good_command (cmd : command) : Prop :=
  match cmd with
  | CRead n => 0 < n
  | CSeek (SeekEnd z) => (i64_min <= z <= i64_max)%Z
  | CSeek (SeekCurrent z) => (i64_min <= z <= i64_max)%Z
  | _ => True
  end.

(* ================= proof ================= *)
Lemma seek_spec s c ds sought : ok c ds -> (sought = true -> c_current c < length ds \/ ds = []) -> good_command (CSeek s) -> (Z.of_nat (length (concat ds)) < i64_max)%Z ->
  match seek s c with
  | Done (c', p) => ok c' ds /\ c_blocks c' = c_blocks c /\ here c' ds = p /\ (c_current c' < length ds \/ ds = []) /\
      p = Z.to_nat (Z.min (target (length (concat ds)) (here c ds) s) (Z.of_nat (length (concat ds)))) /\ (0 <= target (length (concat ds)) (here c ds) s \/ Z.of_nat (length (concat ds)) = 0)%Z
  | Fail _ => False
  | Panic => unsafe (length (concat ds)) (here c ds) sought s
  end.
Proof.
  intros K Hs G LEN. pose proof (here_le _ _ K) as HL. set (len := length (concat ds)) in *. set (pos := here c ds) in *.
  assert (CL : contents_len c = len) by (eapply laid_len; [apply K|reflexivity]).
  pose proof (laid_length _ _ _ (ok_laid _ _ K)) as LL.
  assert (EM : ds = [] \/ ds <> []) by (destruct ds; [left; reflexivity|right; discriminate]).
  assert (TO : forall p, (Z.of_nat p = target len pos s) ->
    match seek_to p c with
    | Done (c', p) => ok c' ds /\ c_blocks c' = c_blocks c /\ here c' ds = p /\ (c_current c' < length ds \/ ds = []) /\ p = Z.to_nat (Z.min (target len pos s) (Z.of_nat len)) /\ (0 <= target len pos s \/ Z.of_nat len = 0)%Z
    | Fail _ => False | Panic => False end).
  { intros p Hp. destruct (seek_to_spec p c ds K) as (c' & E & K' & B1 & B2 & H & C). rewrite E. fold len. split; [exact K'|]. split; [exact B1|]. split; [exact H|].
    split; [destruct EM as [EM|EM]; [right; exact EM|left; exact (C EM)]|]. lia. }
  assert (EB : c_blocks c = [] -> ds = []) by (intros E; rewrite E in LL; destruct ds; [reflexivity|discriminate]).
  assert (EX : forall p, seek_target c s = Done p -> (Z.of_nat p = target len pos s) -> match match seek_target c s with Done p => seek_to p c | Fail e => Fail e | Panic => Panic end with
    | Done (c', p) => ok c' ds /\ c_blocks c' = c_blocks c /\ here c' ds = p /\ (c_current c' < length ds \/ ds = []) /\ p = Z.to_nat (Z.min (target len pos s) (Z.of_nat len)) /\ (0 <= target len pos s \/ Z.of_nat len = 0)%Z
    | Fail _ => False | Panic => unsafe len pos sought s end).
  { intros p -> Hp. specialize (TO p Hp). destruct (seek_to p c) as [[c' p']| |]; [exact TO|contradiction|contradiction]. }
  destruct s as [n|z|z]; cbn [good_command] in G.
  - assert (SE : seek (SeekStart n) c = match seek_target c (SeekStart n) with Done p => seek_to p c | Fail e => Fail e | Panic => Panic end) by reflexivity.
    rewrite SE. apply (EX n); reflexivity.
  - assert (SE : seek (SeekEnd z) c = match seek_target c (SeekEnd z) with Done p => seek_to p c | Fail e => Fail e | Panic => Panic end) by reflexivity.
    rewrite SE. unfold i64_min in G. unfold i64_max in LEN. destruct (Z.ltb_spec z 0) as [Z0|Z0].
    + destruct (Nat.leb_spec (Z.to_nat (Z.min (- z) i64_max)) (contents_len c)) as [L|L].
      * apply (EX (contents_len c - Z.to_nat (Z.min (- z) i64_max))).
        -- cbn [seek_target]. replace (z <? 0)%Z with true by lia. replace (Z.to_nat (Z.min (- z) i64_max) <=? contents_len c) with true by lia. reflexivity.
        -- cbn [target]. rewrite CL in *. unfold i64_max in *. lia.
      * unfold seek_target. replace (z <? 0)%Z with true by lia. cbv zeta. replace (Z.to_nat (Z.min (- z) i64_max) <=? contents_len c) with false by lia.
        right. left. cbn [target]. rewrite CL in L. unfold i64_max in *. lia.
    + apply (EX (contents_len c)).
      * cbn [seek_target]. replace (z <? 0)%Z with false by lia. reflexivity.
      * cbn [target]. rewrite CL. lia.
  - destruct (c_blocks c) as [|b0 r0] eqn:EBL.
    + assert (SE : seek (SeekCurrent z) c = Done (c, 0)) by (unfold seek; rewrite EBL; reflexivity). rewrite SE. specialize (EB eq_refl).
      assert (L0 : len = 0) by (unfold len; rewrite EB; reflexivity). assert (P0 : pos = 0) by lia.
      split; [exact K|]. split; [exact EBL|]. split; [exact P0|]. split; [right; exact EB|]. split; [cbn [target]; lia|right; lia].
    + rewrite <- EBL in *. clear EB.
      assert (DN : ds <> []) by (intros ->; rewrite EBL in LL; discriminate).
      assert (SE : seek (SeekCurrent z) c = match seek_target c (SeekCurrent z) with Done p => seek_to p c | Fail e => Fail e | Panic => Panic end) by (unfold seek; rewrite EBL; reflexivity).
      rewrite SE. destruct (nth_error (c_blocks c) (c_current c)) as [b|] eqn:NB.
      * destruct (laid_nth _ _ _ _ _ (ok_laid _ _ K) NB) as (d & Nd & O & Le & _). cbn [plus] in O.
        assert (PE : bi_offset b + c_offset c = pos) by (unfold pos, here; lia).
        unfold i64_min, i64_max in *.
        destruct (Z.ltb_spec i64_max (Z.of_nat pos + z)) as [OV|OV].
        -- assert (ST : seek_target c (SeekCurrent z) = Panic).
           { cbn [seek_target]. rewrite NB, PE. unfold i64_min, i64_max in *. replace (Z.of_nat pos <=? 9223372036854775807)%Z with true by lia. replace ((-9223372036854775808 <=? Z.of_nat pos + z)%Z && (Z.of_nat pos + z <=? 9223372036854775807)%Z) with false by lia. reflexivity. }
           rewrite ST. right. right. split; [reflexivity|]. exact OV.
        -- destruct (Z.leb_spec 0 (Z.of_nat pos + z)) as [NN|NN].
           ++ apply (EX (Z.to_nat (Z.of_nat pos + z))); [|cbn [target]; lia].
              cbn [seek_target]. rewrite NB, PE. unfold i64_min, i64_max in *. replace (Z.of_nat pos <=? 9223372036854775807)%Z with true by lia. replace ((-9223372036854775808 <=? Z.of_nat pos + z)%Z && (Z.of_nat pos + z <=? 9223372036854775807)%Z) with true by lia.
              replace (0 <=? Z.of_nat pos + z)%Z with true by lia. reflexivity.
           ++ assert (ST : seek_target c (SeekCurrent z) = Panic).
              { cbn [seek_target]. rewrite NB, PE. unfold i64_min, i64_max in *. replace (Z.of_nat pos <=? 9223372036854775807)%Z with true by lia. replace ((-9223372036854775808 <=? Z.of_nat pos + z)%Z && (Z.of_nat pos + z <=? 9223372036854775807)%Z) with true by lia.
                replace (0 <=? Z.of_nat pos + z)%Z with false by lia. reflexivity. }
              rewrite ST. right. left. cbn [target]. lia.
      * apply nth_error_None in NB. rewrite LL in NB. assert (ST : seek_target c (SeekCurrent z) = Panic).
        { cbn [seek_target]. assert (X : nth_error (c_blocks c) (c_current c) = None) by (apply nth_error_None; lia). rewrite X. reflexivity. }
        rewrite ST. left. destruct (ok_pos _ _ K) as [(L & _)|(E & O)]; [lia|].
        assert (PL : pos = len) by (unfold pos, here, len; rewrite E, O, firstn_all; lia).
        split; [|split; [reflexivity|split; [exact PL|]]].
        -- intros L0. unfold len in L0. pose proof (laid_nonempty _ _ _ (ok_laid _ _ K)) as F. destruct ds as [|d r]; [congruence|]. inversion F; subst. cbn in L0. rewrite app_length in L0. lia.
        -- destruct sought; [|reflexivity]. destruct (Hs eq_refl); [lia|contradiction].
Qed.
Lemma exec_spec ds : forall cs fuel c sought, 3 <= fuel -> ok c ds -> (sought = true -> c_current c < length ds \/ ds = []) -> (Z.of_nat (length (concat ds)) < i64_max)%Z ->
  Forall (fun p => stored (fst p) (c_blocks c) ds /\ good_command (snd p)) cs ->
  behaves (concat ds) (here c ds) sought (map snd cs) (exec fuel c cs).
Proof.
  induction cs as [|[db cmd] r IH]; intros fuel c sought Hf K Hs LEN F; [constructor|]. inversion F as [|? ? (St & G) Fr]; subst. cbn [fst snd map] in *. cbn [exec].
  assert (NS : forall c', c_blocks c' = c_blocks c -> Forall (fun p => stored (fst p) (c_blocks c') ds /\ good_command (snd p)) r) by (intros c' ->; exact Fr).
  destruct cmd as [n| |s|n|].
  - cbn in G. destruct (read_spec db ds n fuel c G Hf K St) as (c' & out & -> & K' & B & _ & (R1 & R2 & R3) & R4 & R5).
    constructor; try assumption. rewrite <- R4. apply IH; try assumption; [discriminate|]. apply NS, B.
  - destruct (next_block_spec db ds fuel c ltac:(lia) K St) as (c' & out & -> & K' & B & _ & D & _). destruct out as [l|].
    + destruct D as (D1 & D2). constructor; [exact D1|]. rewrite <- D2. apply IH; try assumption; [discriminate|]. apply NS, B.
    + destruct D as (D1 & D2). rewrite D1. constructor. rewrite <- D1, <- D2. apply IH; try assumption; [discriminate|]. apply NS, B.
  - pose proof (seek_spec s c ds sought K Hs G LEN) as SP. destruct (seek s c) as [[c' p]| |]; [|contradiction|apply b_seek_panic; exact SP].
    destruct SP as (K' & B & H & C & P & T). eapply b_seek; [exact P|lia|]. rewrite <- H. apply IH; try assumption; [intros _; exact C|]. apply NS, B.
  - constructor; [exact I|]. change (here c ds) with (here (with_buffer_size n c) ds). apply IH; try assumption. constructor; apply K.
  - constructor; [exact I|]. change (here c ds) with (here (clone_contents c) ds). apply IH; try assumption. constructor; [apply K|exists 0, 0; reflexivity|apply K].
Qed.

(* ================= C47 ================= *)
(* Any sequence of reads (with non-empty buffers), block reads, seeks, buffer
   changes and clones, while the blocks of the file stay in the database, acts
   as the file handle above: no call hangs, and no call panics except the seeks
   called unsafe. *)
Theorem C47_handle bs es db f content q buffer cs fuel : 0 < bs -> runs bs empty_db es db -> reads_as bs db f content -> Permutation q (by_file f db) ->
  3 <= fuel -> (Z.of_nat (length content) < i64_max)%Z ->
  Forall (fun p => keeps f db (fst p) /\ good_command (snd p)) cs ->
  behaves content 0 true (map snd cs) (exec fuel (opened bs buffer q) cs).
Proof.
  intros Hb R RA P Hf LEN F. assert (W := runs_wf _ _ _ _ Hb (wf_empty bs) R). destruct (opened_ok bs f db q buffer W P) as (K & H).
  assert (EC : content = concat (file_data db f)).
  { destruct (RA q buffer P) as (_ & _ & RE). destruct (RE (fun _ => 1) ltac:(intros; cbn; lia)) as (m1 & E1).
    destruct (reads_as_wf bs db f W q buffer P) as (_ & _ & RE2). destruct (RE2 (fun _ => 1) ltac:(intros; cbn; lia)) as (m2 & E2).
    specialize (E1 (m1 + m2) 3 ltac:(lia) ltac:(lia)). specialize (E2 (m1 + m2) 3 ltac:(lia) ltac:(lia)). rewrite E1 in E2. injection E2 as E2. exact E2. }
  subst content. rewrite <- H. apply exec_spec; try assumption.
  - intros _. cbn. destruct (file_data db f); [right; reflexivity|left; cbn; lia].
  - eapply Forall_impl; [|exact F]. intros [db' cmd] (Kp & G). split; [|exact G]. cbn [fst] in *. cbn. eapply stored_of; [exact W|exact (for_file_eq _ _ _ _ W P)|reflexivity|exact Kp].
Qed.
(* what other clients may do meanwhile: appends (to any file) and any change of
   the file documents and of other files' blocks keep the blocks *)
Theorem C47_others bs db es db' f : 0 < bs -> (exists es0, runs bs empty_db es0 db) -> runs bs db es db' ->
  Forall (fun e => match e with Truncated g _ _ | BlocksDeleted g => g <> f | _ => True end) es -> keeps f db db'.
Proof.
  intros Hb (es0 & R0) R F. assert (W := runs_wf _ _ _ _ Hb (wf_empty bs) R0). clear R0 es0.
  assert (G : forall id c, In (id, c) (blocks db) -> map_file_id c = f -> In (id, c) (blocks db')).
  { induction R as [|db e db1 r db2 S R IH]; [tauto|]. inversion F as [|? ? F1 F2]; subst. destruct (step_spec _ _ _ _ Hb W S) as (W1 & _). specialize (IH F2 W1).
    intros id c I M. apply IH; [|exact M].
    destruct S as [db g d t db1 A|db g q n side db1 P A|db g q db1 P A|db l Fl].
    - unfold append in A. destruct d as [|x d]; [injection A as <-; exact I|]. destruct bs; [discriminate|]. destruct (lookup g (files db)); [|discriminate].
      destruct (insert_blocks _ _) as [l|] eqn:E; [|discriminate]. injection A as <-. destruct (insert_blocks_spec _ _ _ (wf_sorted _ _ W) E) as (new & -> & _). cbn. apply in_app_iff. left. exact I.
    - destruct (truncate_spec bs g n side db q Hb W P) as (db3 & A2 & _ & _ & O & _). rewrite A in A2. injection A2 as <-.
      assert (X : In (id, c) (entries f (blocks db1))) by (rewrite O by congruence; apply filter_In; split; [exact I|]; apply N.eqb_eq; exact M). apply filter_In in X. apply X.
    - destruct (delete_for_file_spec bs g db q W P) as (db3 & A2 & _ & _ & O & _). rewrite A in A2. injection A2 as <-.
      assert (X : In (id, c) (entries f (blocks db1))) by (rewrite O by congruence; apply filter_In; split; [exact I|]; apply N.eqb_eq; exact M). apply filter_In in X. apply X.
    - exact I. }
  intros id c I M. apply lookup_in; [apply (wf_sorted bs), (runs_wf _ _ _ _ Hb W R)|]. apply G; assumption.
Qed.
Example C47_example :
  exec 3 (opened 3 4 (by_file 0 ex_db1)) (map (pair ex_db1) [CRead 2; CRead 9; CNext; CSeek (SeekCurrent (-2)); CClone; CRead 2; CSeek (SeekEnd (-1)); CBuffer 0; CNext; CNext; CSeek (SeekStart 99); CRead 1]) =
    [RRead [1;2]; RRead [3]; RNext (Some []); RSeek 1; RUnit; RRead [2;3]; RSeek 6; RUnit; RNext (Some [7]); RNext None; RSeek 7; RRead []]%N
  /\ 0 < 3 /\ runs 3 empty_db [FilesChanged; Appended 0 [1;2;3;4;5;6;7]%N] ex_db1 /\ keeps 0%N ex_db1 ex_db1.
Proof.
  split; [vm_compute; reflexivity|]. split; [lia|]. split; [apply C46_example|].
  apply (C47_others 3 ex_db1 [] ex_db1 0%N); [lia|eexists; apply C46_example|constructor|constructor].
Qed.

(* Findings: calls that break "no call panics" or "reads return consecutive bytes" *)
(* seek(End(-n)) beyond the start *)
Theorem C47_seek_end_refuted : exec 3 (opened 3 4 (by_file 0 ex_db1)) [(ex_db1, CSeek (SeekEnd (-8)))] = [RPanic].
Proof. vm_compute. reflexivity. Qed.
(* seek(Current(0)) (stream_position) after reading to the end *)
Theorem C47_seek_after_end_refuted :
  exec 3 (opened 3 4 (by_file 0 ex_db1)) (map (pair ex_db1) [CRead 9; CRead 9; CRead 9; CRead 9; CSeek (SeekCurrent 0)]) =
    [RRead [1;2;3]; RRead [4;5;6]; RRead [7]; RRead []; RPanic]%N.
Proof. vm_compute. reflexivity. Qed.
(* a read with an empty buffer skips the blocks that are loaded: the following
   read does not continue at the position *)
Theorem C47_empty_read_refuted :
  exec 3 (opened 3 99 (by_file 0 ex_db1)) (map (pair ex_db1) [CRead 2; CRead 0; CRead 9]) = [RRead [1;2]; RRead []; RRead []]%N.
Proof. vm_compute. reflexivity. Qed.
(* if the blocks are deleted while the file is open, read never returns *)
Lemma load_nothing db l : (forall id, lookup id (blocks db) = None) -> load l db = [].
Proof. intros H. unfold load. induction l as [|i l IH]; cbn; [reflexivity|]. rewrite H. exact IH. Qed.
Theorem C47_deleted_refuted : forall fuel n, 0 < n -> exec fuel (opened 3 4 (by_file 0 ex_db1)) [(FDb (files ex_db1) [], CRead n)] = [RHangs].
Proof.
  intros fuel n Hn. cbn [exec]. assert (E : forall fuel, read fuel n (FDb (files ex_db1) []) (opened 3 4 (by_file 0 ex_db1)) = Done None); [|rewrite E; reflexivity].
  clear fuel. induction fuel as [|k IH]; [reflexivity|]. cbn [read].
  assert (X : non_blocking_read n (opened 3 4 (by_file 0 ex_db1)) = Some (opened 3 4 (by_file 0 ex_db1), NeedBlocks)) by reflexivity. rewrite X.
  assert (Y : load_blocks (FDb (files ex_db1) []) (opened 3 4 (by_file 0 ex_db1)) = opened 3 4 (by_file 0 ex_db1)) by (unfold load_blocks; rewrite load_nothing by reflexivity; reflexivity).
  rewrite Y. exact IH.
Qed.
Print Assumptions C47_handle.
Print Assumptions C47_others.
Print Assumptions C47_seek_end_refuted.
Print Assumptions C47_seek_after_end_refuted.
Print Assumptions C47_empty_read_refuted.
Print Assumptions C47_deleted_refuted.
