(* C90: reading a file through the asynchronous interface, against an abstract
   file handle, for every schedule of the task that fetches the blocks. *)
From Verif Require Import Base Key KeyProofs Files FilesProofs FilesRead PropFiles PropRead FilesAsync FilesAsyncProofs.
From Coq Require Import Permutation Sorted ZifyBool Lia Arith.
Local Open Scope nat_scope.

(* ================= specification ================= *)
(* One call of the program, with what the fetching task does during each of its
   polls (see FilesAsync.v). A future whose polls run out was dropped. *)
Inductive acall :=
| KRead (n : nat) (ps : schedule)      (* tokio: read(&mut [..n]).await *)
| KExact (n : nat) (ps : schedule)     (* tokio: read_exact(&mut [..n]).await *)
| KNext (ps : schedule)                (* futures: next().await *)
| KSeek (s : seek_from)                (* tokio: seek(..).await *)
| KBuffer (n : nat)
| KClone.
Inductive ares := RAns (a : answer) | RPos (p : nat) | RNone | RBoom.
(* [prompt ps]: the task has a turn before each poll *)
(* what calls may answer. [pos]: the position; [sought]: the last call that moved
   was a seek (or there was none); [out]: a call was dropped while waiting, and
   none has completed since *)
Inductive follows (content : bytes) : nat -> bool -> bool -> list acall -> list ares -> Prop :=
| f_nil pos sought out : follows content pos sought out [] []
(* read_exact: exactly the next n bytes; or all that is left, if that is less
   (UnexpectedEof); or still waiting, having taken in some of the bytes - not if
   the task answers promptly *)
| f_exact pos sought out n ps l cs rs : l = firstn n (skipn pos content) -> length l = n ->
    follows content (pos + n) (sought && (n =? 0)) (out && (n =? 0)) cs rs ->
    follows content pos sought out (KExact n ps :: cs) (RAns (AOk l) :: rs)
| f_exact_end pos sought out n ps cs rs : pos <= length content -> length content < pos + n ->
    follows content (length content) false false cs rs ->
    follows content pos sought out (KExact n ps :: cs) (RAns (AEnd (skipn pos content)) :: rs)
| f_exact_wait pos sought out n k ps cs rs : k < n -> pos + k <= length content -> ~ (prompt ps /\ n + 2 <= length ps) ->
    follows content (pos + k) false true cs rs ->
    follows content pos sought out (KExact n ps :: cs) (RAns AWaiting :: rs)
(* read: the n bytes (or all that is left) that come after the position plus the
   bytes [lost] in polls that found too little; none are lost if the first poll
   answers, or for one-byte buffers *)
| f_read pos sought out n ps l lost cs rs : l = firstn n (skipn (pos + lost) content) -> pos + lost <= length content ->
    lost <= (n - 1) * length ps -> (length ps <= 1 -> lost = 0) ->
    follows content (pos + lost + length l) false false cs rs ->
    follows content pos sought out (KRead n ps :: cs) (RAns (AOk l) :: rs)
| f_read_wait pos sought out n ps lost cs rs : pos + lost <= length content -> lost <= (n - 1) * length ps ->
    ~ (prompt ps /\ length content - pos + 2 < length ps) ->
    follows content (pos + lost) false true cs rs ->
    follows content pos sought out (KRead n ps :: cs) (RAns AWaiting :: rs)
(* the stream: the next piece of the content; the end only at the end *)
| f_next pos sought out ps l cs rs : l = firstn (length l) (skipn pos content) ->
    follows content (pos + length l) false false cs rs ->
    follows content pos sought out (KNext ps :: cs) (RAns (AOk l) :: rs)
| f_next_end sought out ps cs rs : follows content (length content) false false cs rs ->
    follows content (length content) sought out (KNext ps :: cs) (RAns (AEnd []) :: rs)
| f_next_wait pos sought out ps cs rs : ~ (prompt ps /\ 2 <= length ps) ->
    follows content pos false true cs rs ->
    follows content pos sought out (KNext ps :: cs) (RAns AWaiting :: rs)
(* seeks as in C47 *)
| f_seek pos sought s p cs rs :
    p = Z.to_nat (Z.min (target (length content) pos s) (Z.of_nat (length content))) -> ((0 <= target (length content) pos s)%Z \/ length content = 0) ->
    follows content p true false cs rs ->
    follows content pos sought false (KSeek s :: cs) (RPos p :: rs)
| f_seek_panic pos sought s cs : unsafe (length content) pos sought s -> follows content pos sought false (KSeek s :: cs) [RBoom]
(* no promise after a seek while a dropped call's blocks are under way *)
| f_seek_out pos sought s cs rs : follows content pos sought true (KSeek s :: cs) rs
| f_buffer pos sought out n cs rs : follows content pos sought out cs rs -> follows content pos sought out (KBuffer n :: cs) (RNone :: rs)
| f_clone pos sought out cs rs : follows content pos sought false cs rs -> follows content pos sought out (KClone :: cs) (RNone :: rs).

(* running the model *)
Fixpoint serve (r : reader) (cs : list acall) : list ares * reader :=
  match cs with
  | [] => ([], r)
  | c :: cs' =>
      let go x r' := let '(l, r2) := serve r' cs' in (x :: l, r2) in
      match c with
      | KRead n ps => let '(r', a) := read_call ps n r in go (RAns a) r'
      | KExact n ps => let '(r', a) := exact_call ps n [] r in go (RAns a) r'
      | KNext ps => let '(r', a) := next_call ps r in go (RAns a) r'
      | KSeek s => match seek_async s r with Done (r', p) => go (RPos p) r' | _ => ([RBoom], r) end
      | KBuffer n => go RNone (set_c (with_buffer_size n (r_c r)) r)
      | KClone => go RNone (clone_reader r)
      end
  end.
(* every database the task sees still has the blocks of the file, and answers *)
Definition good_turn (f : N) (db : fdb) (t : option turn) : Prop := match t with Some t => t_ok t = true /\ keeps f db (t_db t) | None => True end.
Definition good_schedule (f : N) (db : fdb) (ps : schedule) : Prop := Forall (Forall (good_turn f db)) ps.
Definition good_call (f : N) (db : fdb) (c : acall) : Prop :=
  match c with
  | KRead n ps => 0 < n /\ good_schedule f db ps
  | KExact _ ps | KNext ps => good_schedule f db ps
  | KSeek s => good_command (CSeek s)
  | _ => True
  end.

(* ================= proof ================= *)
Definition calm (l : list block_info) (ds : list bytes) (c : acall) : Prop :=
  match c with
  | KRead n ps => 0 < n /\ fine l ds ps
  | KExact _ ps | KNext ps => fine l ds ps
  | KSeek s => good_command (CSeek s)
  | _ => True
  end.
Lemma slice_n {A} (l : list A) p k (out : list A) : out = firstn (length out) (skipn p l) -> length out = k -> out = firstn k (skipn p l).
Proof. intros H <-. exact H. Qed.
Lemma slice_end {A} (l : list A) p (out : list A) : out = firstn (length out) (skipn p l) -> p + length out = length l -> out = skipn p l.
Proof. intros H E. rewrite H at 1. apply firstn_all2. rewrite skipn_length. lia. Qed.
Lemma serve_spec ds : forall cs r sought out, rok r ds -> (sought = true -> c_current (r_c r) < length ds \/ ds = []) -> (out = false -> r_requested r = false) ->
  (Z.of_nat (length (concat ds)) < i64_max)%Z -> Forall (calm (c_blocks (r_c r)) ds) cs ->
  follows (concat ds) (pos r ds) sought out cs (fst (serve r cs)).
Proof.
  induction cs as [|c cs IH]; intros r sought out R Hs Ho LEN F; cbn [serve]; [constructor|].
  inversion F as [|? ? G Fr]; subst. pose proof (here_le _ _ (rk_ok _ _ R)) as HL. fold (pos r ds) in HL.
  assert (IH' : forall r' s o, rok r' ds -> c_blocks (r_c r') = c_blocks (r_c r) -> (s = true -> c_current (r_c r') < length ds \/ ds = []) -> (o = false -> r_requested r' = false) ->
    follows (concat ds) (pos r' ds) s o cs (fst (serve r' cs))) by (intros; apply IH; try assumption; congruence).
  clear IH. destruct c as [n ps|n ps|ps|s|n|]; cbn [calm] in G.
  - destruct G as (Hn & G). destruct (read_spec_async ds n Hn ps r R G) as (r' & a & lost & E & R' & B & U & V & P). rewrite E.
    specialize (IH' r' false). pose proof (here_le _ _ (rk_ok _ _ R')) as HL'. fold (pos r' ds) in HL'.
    destruct (serve r' cs) as [rs r2] eqn:ES. cbn [fst]. destruct a as [l|l| | | |]; try contradiction.
    + destruct U as (U1 & U2 & U3 & U4 & U5). eapply (f_read (concat ds) (pos r ds) sought out n ps l lost).
      * destruct U3 as [U3|(U3 & U6)]; [apply slice_n; assumption|]. rewrite firstn_all2; [apply slice_end; [exact U1|lia]|rewrite skipn_length; lia].
      * lia.
      * exact V.
      * exact U5.
      * rewrite <- U2. apply (IH' false R' B ltac:(discriminate) ltac:(intros _; exact U4)).
    + eapply (f_read_wait (concat ds) (pos r ds) sought out n ps lost); [lia|exact V|intros (Pr & L); exact (P Pr L eq_refl)|].
      rewrite <- U. apply (IH' true R' B ltac:(discriminate) ltac:(discriminate)).
  - destruct (exact_spec ds n ps [] r ltac:(cbn; lia) R G) as (r' & a & o & E & R' & B & O1 & O2 & U & P). rewrite E. cbn [app] in U.
    pose proof (here_le _ _ (rk_ok _ _ R')) as HL'. fold (pos r' ds) in HL'.
    assert (ZR : n = 0 -> r' = r /\ a = AOk []) by (intros ->; destruct ps; cbn in E; injection E as <- <-; split; reflexivity).
    pose proof (fun s o => IH' r' s o R' B) as IH2. destruct (serve r' cs) as [rs r2] eqn:ES. cbn [fst] in *. destruct a as [l|l| | | |]; try contradiction.
    + destruct U as (-> & U1 & U2). eapply (f_exact (concat ds)); [apply slice_n; [exact O1|exact U1]|exact U1|]. rewrite <- U1 at 1. rewrite <- O2.
      destruct (n =? 0) eqn:Z.
      * apply Nat.eqb_eq in Z. destruct (ZR Z) as (-> & _). rewrite !andb_true_r. apply IH2; assumption.
      * rewrite !andb_false_r. apply IH2; [discriminate|]. intros _. apply U2; [cbn; right; lia|]. intros <-. cbn in U1. lia.
    + destruct U as (-> & U1 & U2 & U3). rewrite (slice_end _ _ _ O1 ltac:(lia)). eapply (f_exact_end (concat ds)); [exact HL|lia|].
      rewrite <- U2. apply IH2; [discriminate|intros _; exact U3].
    + eapply (f_exact_wait (concat ds) (pos r ds) sought out n (length o) ps); [exact U|lia| |rewrite <- O2; apply IH2; discriminate].
      intros (Pr & L). apply (P Pr); [|reflexivity]. unfold potential. cbn [length]. destruct (c_offset (r_c r) =? 0), (r_requested r || (c_current (r_c r) =? length ds)); lia.
  - destruct (next_call_spec ds ps r R G) as (r' & a & E & R' & B & U & P). rewrite E.
    pose proof (fun s o => IH' r' s o R' B) as IH2. destruct (serve r' cs) as [rs r2] eqn:ES. cbn [fst] in *. destruct a as [l|l| | | |]; try contradiction.
    + destruct U as (U1 & U2 & U3). eapply (f_next (concat ds)); [exact U1|]. rewrite <- U2. apply IH2; [discriminate|intros _; exact U3].
    + destruct U as (-> & U1 & U2 & U3). rewrite U1. apply (f_next_end (concat ds)). rewrite <- U1, <- U2. apply IH2; [discriminate|intros _; exact U3].
    + eapply (f_next_wait (concat ds)); [intros (Pr & L); apply (P Pr); [destruct (r_requested r); lia|reflexivity]|]. rewrite <- U. apply IH2; discriminate.
  - destruct out; [apply f_seek_out|]. specialize (Ho eq_refl). pose proof (seek_spec s (r_c r) ds sought (rk_ok _ _ R) Hs G LEN) as SP. unfold seek_async.
    destruct (seek s (r_c r)) as [[c' p]| |]; [|contradiction|cbn; apply f_seek_panic; exact SP].
    destruct SP as (K' & B & H & C & P & T). rewrite (poll_complete_here c' ds K'), H. destruct (serve (set_c c' r) cs) as [rs r2] eqn:ES. cbn [fst].
    eapply (f_seek (concat ds)); [exact P|fold (pos r ds) in T; lia|]. assert (X := IH' (set_c c' r) true false). rewrite ES in X. cbn [fst] in X. unfold pos in X. cbn in X. rewrite H in X.
    apply X; [|exact B|intros _; exact C|intros _; exact Ho]. apply set_rok; [exact R|exact K'|exact B|]. rewrite Ho. discriminate.
  - assert (R1 : rok (set_c (with_buffer_size n (r_c r)) r) ds) by (constructor; [constructor; apply (rk_ok _ _ R)|exact (rk_ch _ _ R)]).
    pose proof (IH' _ sought out R1 eq_refl Hs Ho) as X. destruct (serve (set_c (with_buffer_size n (r_c r)) r) cs) as [rs r2]. cbn [fst] in *. apply f_buffer. exact X.
  - assert (R1 : rok (clone_reader r) ds).
    { apply open_rok. constructor; [apply (rk_ok _ _ R)|exists 0, 0; reflexivity|apply (rk_ok _ _ R)]. }
    pose proof (IH' _ sought false R1 eq_refl Hs (fun _ => eq_refl)) as X. destruct (serve (clone_reader r) cs) as [rs r2]. cbn [fst] in *. apply f_clone. exact X.
Qed.
Lemma content_is bs db f content q (buffer : nat) : wf bs db -> reads_as bs db f content -> Permutation q (by_file f db) -> content = concat (file_data db f).
Proof.
  intros W RA P. destruct (RA q buffer P) as (_ & _ & RE). destruct (RE (fun _ => 1) ltac:(intros; cbn; lia)) as (m1 & E1).
  destruct (reads_as_wf bs db f W q buffer P) as (_ & _ & RE2). destruct (RE2 (fun _ => 1) ltac:(intros; cbn; lia)) as (m2 & E2).
  specialize (E1 (m1 + m2) 3 ltac:(lia) ltac:(lia)). specialize (E2 (m1 + m2) 3 ltac:(lia) ltac:(lia)). rewrite E1 in E2. injection E2 as E2. exact E2.
Qed.
Lemma good_fine bs db f q buffer ps : wf bs db -> Permutation q (by_file f db) -> good_schedule f db ps -> fine (c_blocks (opened bs buffer q)) (file_data db f) ps.
Proof.
  intros W P G. unfold fine, good_schedule in *. eapply Forall_impl; [|exact G]. intros ts. unfold all_healthy. intros H. eapply Forall_impl; [|exact H].
  intros [t|]; [|tauto]. cbn. intros (A & B). split; [exact A|]. eapply stored_of; [exact W|exact (for_file_eq _ _ _ _ W P)|reflexivity|exact B].
Qed.

(* ================= C90 ================= *)
(* For every file, every sequence of calls and every schedule of the task: the
   answers are those of a position in the file's content. *)
Theorem C90_handle bs es db f content q buffer cs : 0 < bs -> runs bs empty_db es db -> reads_as bs db f content -> Permutation q (by_file f db) ->
  (Z.of_nat (length content) < i64_max)%Z -> Forall (good_call f db) cs ->
  follows content 0 true false cs (fst (serve (open_reader (opened bs buffer q)) cs)).
Proof.
  intros Hb R RA P LEN F. assert (W := runs_wf _ _ _ _ Hb (wf_empty bs) R). destruct (opened_ok bs f db q buffer W P) as (K & H).
  assert (EC := content_is bs db f content q buffer W RA P). subst content. change 0 with (here (opened bs buffer q) (file_data db f)) in *.
  apply (serve_spec (file_data db f) cs (open_reader (opened bs buffer q)) true false); [apply open_rok, K| |reflexivity|exact LEN|].
  - intros _. cbn. destruct (file_data db f); [right; reflexivity|left; cbn; lia].
  - eapply Forall_impl; [|exact F]. intros c G. cbn. destruct c as [n ps|n ps|ps|s|n|]; cbn in G |- *; try exact G; try (apply (good_fine bs db f q buffer ps W P); exact G).
    split; [apply G|apply (good_fine bs db f q buffer ps W P); apply G].
Qed.
(* each poll comes back, whatever the state, the blocks still in the database and
   the schedule *)
Theorem C90_poll_returns : forall ts n buf r,
  (forall r', poll_read ts n buf r <> Done (r', PStuck)) /\ (forall r', poll_next ts r <> Done (r', NStuck)).
Proof.
  intros ts n buf r. split; intros r' E.
  - pose proof (poll_loop_returns (rounds ts n r) ts n buf r (rounds_enough ts n buf r)) as X. unfold poll_read in E. rewrite E in X. exact X.
  - pose proof (next_loop_returns (rounds ts 0 r) ts r (rounds_enough ts 0 [] r)) as X. unfold poll_next in E. rewrite E in X. exact X.
Qed.
(* to_vec / into_vec give the whole file when nothing was read yet *)
Theorem C90_to_vec bs es db f content q buffer ps : 0 < bs -> runs bs empty_db es db -> reads_as bs db f content -> Permutation q (by_file f db) ->
  good_schedule f db ps -> prompt ps -> length content + 2 <= length ps ->
  into_vec ps (open_reader (opened bs buffer q)) = AOk content /\ to_vec ps (open_reader (opened bs buffer q)) = AOk content.
Proof.
  intros Hb R RA P G Pr L. assert (W := runs_wf _ _ _ _ Hb (wf_empty bs) R). destruct (opened_ok bs f db q buffer W P) as (K & H).
  assert (EC := content_is bs db f content q buffer W RA P). subst content. set (ds := file_data db f) in *.
  assert (ALL : forall c, ok c ds -> here c ds = 0 -> c_blocks c = c_blocks (opened bs buffer q) -> into_vec ps (open_reader c) = AOk (concat ds)).
  { intros c K1 H1 B1. unfold into_vec. cbn [r_c open_reader]. rewrite (laid_len (c_blocks c) ds c (ok_laid _ _ K1) eq_refl).
    destruct (exact_spec ds (length (concat ds)) ps [] (open_reader c) ltac:(cbn; lia) (open_rok c ds K1) ltac:(cbn; rewrite B1; exact (good_fine bs db f q buffer ps W P G))) as (r' & a & o & E & R' & B & O1 & O2 & U & PR).
    rewrite E. cbn [snd app] in *. pose proof (here_le _ _ (rk_ok _ _ R')) as HL. fold (pos r' ds) in HL. unfold pos in O1, O2 at 2. cbn in O1, O2. rewrite H1 in O1, O2. cbn in O1, O2.
    destruct a as [l|l| | | |]; try contradiction.
    - destruct U as (-> & U1 & _). rewrite O1. rewrite firstn_all2 by lia. reflexivity.
    - destruct U as (-> & U1 & U2 & _). lia.
    - exfalso. apply (PR Pr); [|reflexivity]. unfold potential. cbn. destruct (c_offset c =? 0), (c_current c =? length ds); lia. }
  split; [apply ALL; [exact K|exact H|reflexivity]|]. unfold to_vec, clone_reader. cbn [r_c open_reader]. apply ALL; [|exact H|reflexivity].
  constructor; [apply K|exists 0, 0; reflexivity|apply K].
Qed.

(* ---------- what does not hold ---------- *)
(* "Returns the remaining contents": after anything was read, into_vec and to_vec
   answer with UnexpectedEof, whatever the file *)
Theorem C90_remaining_refuted bs es db f content q buffer k ps1 r b ps : 0 < bs -> runs bs empty_db es db -> reads_as bs db f content -> Permutation q (by_file f db) ->
  0 < k -> good_schedule f db ps1 -> exact_call ps1 k [] (open_reader (opened bs buffer q)) = (r, AOk b) ->
  good_schedule f db ps -> prompt ps -> length content + 2 <= length ps ->
  into_vec ps r = AEnd (skipn k content) /\ to_vec ps r = AEnd (skipn k content).
Proof.
  intros Hb R RA P Hk G1 E1 G Pr L. assert (W := runs_wf _ _ _ _ Hb (wf_empty bs) R). destruct (opened_ok bs f db q buffer W P) as (K & H).
  assert (EC := content_is bs db f content q buffer W RA P). subst content. set (ds := file_data db f) in *.
  destruct (exact_spec ds k ps1 [] (open_reader (opened bs buffer q)) ltac:(cbn; lia) (open_rok _ ds K) (good_fine bs db f q buffer ps1 W P G1)) as (r' & a & o & E & R' & B & O1 & O2 & U & _).
  rewrite E1 in E. injection E as <- <-. destruct U as (-> & U1 & _). cbn [app] in *. unfold pos in O2 at 2. cbn [open_reader r_c] in O2. rewrite H in O2. cbn [plus] in O2. rewrite U1 in O2.
  assert (ALL : forall r2, rok r2 ds -> pos r2 ds = k -> c_blocks (r_c r2) = c_blocks (opened bs buffer q) -> into_vec ps r2 = AEnd (skipn k (concat ds))).
  { intros r2 R2 P2 B2. unfold into_vec. rewrite (laid_len (c_blocks (r_c r2)) ds (r_c r2) (ok_laid _ _ (rk_ok _ _ R2)) eq_refl).
    destruct (exact_spec ds (length (concat ds)) ps [] r2 ltac:(cbn; lia) R2 ltac:(rewrite B2; exact (good_fine bs db f q buffer ps W P G))) as (r3 & a & o2 & E & R3 & B' & V1 & V2 & U & PR).
    rewrite E. cbn [snd app] in *. pose proof (here_le _ _ (rk_ok _ _ R3)) as HL. fold (pos r3 ds) in HL. rewrite P2 in V1, V2.
    destruct a as [l|l| | | |]; try contradiction.
    - destruct U as (-> & U2 & _). lia.
    - destruct U as (-> & U2 & U3 & _). f_equal. apply slice_end; [exact V1|lia].
    - exfalso. apply (PR Pr); [|reflexivity]. unfold potential. cbn. destruct (c_offset (r_c r2) =? 0), (r_requested r2 || (c_current (r_c r2) =? length ds)); lia. }
  split; [apply ALL; assumption|]. unfold to_vec. apply ALL; [|exact O2|exact B]. apply open_rok. constructor; [apply (rk_ok _ _ R')|exists 0, 0; reflexivity|apply (rk_ok _ _ R')].
Qed.
(* one failed load ends the reader for good: whatever happened before, and however
   well the database answers later, no later call on it completes *)
Definition on_reader (c : acall) : Prop := match c with KClone => False | KRead n _ | KExact n _ => 0 < n | _ => True end.
Definition hopeless (x : ares) : Prop := match x with RAns a => a = AWaiting | _ => True end.
Lemma serve_tidy : forall cs r, tidy r -> tidy (snd (serve r cs)) /\ (forall l, fst (serve r cs) = l ++ [RAns AFailed] -> dead (snd (serve r cs))).
Proof.
  induction cs as [|c cs IH]; intros r T; cbn [serve]; [split; [exact T|intros [|? ?]; discriminate]|].
  assert (GO : forall x r', tidy r' -> (x = RAns AFailed -> dead r') -> tidy (snd (let '(l, r2) := serve r' cs in (x :: l, r2))) /\
    (forall l, fst (let '(l, r2) := serve r' cs in (x :: l, r2)) = l ++ [RAns AFailed] -> dead (snd (let '(l, r2) := serve r' cs in (x :: l, r2))))).
  { intros x r' T' D. specialize (IH r' T'). destruct (serve r' cs) as [l0 r2] eqn:ES. cbn [fst snd] in *. split; [apply IH|]. intros [|y l] E.
    - cbn in E. injection E as -> ->. destruct cs as [|c2 cs2]; [injection ES as <-; apply D; reflexivity|]. exfalso. clear - ES. cbn [serve] in ES. destruct c2.
      + destruct (read_call ps n r') as [r0 a0]. destruct (serve r0 cs2). discriminate.
      + destruct (exact_call ps n [] r') as [r0 a0]. destruct (serve r0 cs2). discriminate.
      + destruct (next_call ps r') as [r0 a0]. destruct (serve r0 cs2). discriminate.
      + destruct (seek_async s r') as [[r0 p]| |]; [destruct (serve r0 cs2); discriminate|discriminate|discriminate].
      + destruct (serve _ cs2). discriminate.
      + destruct (serve _ cs2). discriminate.
    - cbn in E. injection E as -> E. apply IH with (l := l). exact E. }
  destruct c as [n ps|n ps|ps|s|n|].
  - destruct (read_call ps n r) as [r' a] eqn:E. destruct (read_tidy n ps r r' a T E) as (A & B). apply GO; [exact A|intros [= ->]; apply B; reflexivity].
  - destruct (exact_call ps n [] r) as [r' a] eqn:E. destruct (exact_tidy n ps [] r r' a T E) as (A & B). apply GO; [exact A|intros [= ->]; apply B; reflexivity].
  - destruct (next_call ps r) as [r' a] eqn:E. destruct (ncall_tidy ps r r' a T E) as (A & B). apply GO; [exact A|intros [= ->]; apply B; reflexivity].
  - destruct (seek_async s r) as [[r' p]| |] eqn:E; [apply GO; [apply (seek_tidy _ _ _ _ E), T|discriminate]|split; [exact T|intros [|? [|? ?]]; discriminate]..].
  - apply GO; [exact T|discriminate].
  - apply GO; [split; reflexivity|discriminate].
Qed.
Theorem C90_failure_refuted bs buffer q cs l r cs2 : serve (open_reader (opened bs buffer q)) cs = (l ++ [RAns AFailed], r) ->
  Forall on_reader cs2 -> Forall hopeless (fst (serve r cs2)).
Proof.
  intros E F. destruct (serve_tidy cs (open_reader (opened bs buffer q)) ltac:(split; reflexivity)) as (_ & D). rewrite E in D. cbn [fst snd] in D. specialize (D l eq_refl). clear E.
  revert r D. induction F as [|c cs2 O F IH]; intros r D; cbn [serve]; [constructor|]. destruct c as [n ps|n ps|ps|s|n|]; cbn in O; try contradiction.
  - rewrite (dead_read n ps r D). specialize (IH r D). destruct (serve r cs2). constructor; [reflexivity|exact IH].
  - rewrite (dead_exact n ps r O D). specialize (IH r D). destruct (serve r cs2). constructor; [reflexivity|exact IH].
  - rewrite (dead_next ps r D). specialize (IH r D). destruct (serve r cs2). constructor; [reflexivity|exact IH].
  - destruct (seek_async s r) as [[r' p]| |] eqn:E; [|constructor; [exact I|constructor]..]. specialize (IH r' (proj2 (seek_tidy _ _ _ _ E) D)). destruct (serve r' cs2). constructor; [exact I|exact IH].
  - specialize (IH (set_c (with_buffer_size n (r_c r)) r) D). destruct (serve _ cs2). constructor; [exact I|exact IH].
Qed.

(* whatever happened before: when the task's load fails, the call that is waiting
   for it reports the failure at its next poll *)
Theorem C90_failure_reported bs buffer q cs l r d ts ps n : serve (open_reader (opened bs buffer q)) cs = (l, r) -> r_requests r <> [] -> 0 < n ->
  snd (exact_call ((Some (Turn d false) :: ts) :: ps) n [] r) = AFailed /\
  snd (read_call ((Some (Turn d false) :: ts) :: ps) n r) = AFailed /\
  snd (next_call ((Some (Turn d false) :: ts) :: ps) r) = AFailed.
Proof.
  intros E Nq Hn. destruct (serve_tidy cs (open_reader (opened bs buffer q)) ltac:(split; reflexivity)) as (T & _). rewrite E in T. cbn [snd] in T. cbn [exact_call read_call next_call]. unfold poll_read, poll_next.
  replace (n - length (@nil N) =? 0) with false by (cbn; lia).
  destruct (rounds_S (Some (Turn d false) :: ts) n r) as (k & ->). destruct (rounds_S (Some (Turn d false) :: ts) 0 r) as (k0 & ->).
  destruct (failed_poll k d ts n [] r T Nq) as (r1 & ->). destruct (failed_pnext k0 d ts r T Nq) as (r2 & ->). cbn. repeat split.
Qed.

(* ---------- a file of three blocks, read with room for one block ---------- *)
Definition live : list (option turn) := [Some (Turn ex_db1 true)].
Definition ex_reader : reader := open_reader (opened 3 4 (by_file 0 ex_db1)).
(* the task answers between the polls *)
Example C90_example :
  fst (serve ex_reader [KExact 2 [live; live]; KNext [live]; KExact 3 [live; live; live]; KSeek (SeekStart 2); KClone; KExact 9 [live; live; live; live; live; live; live]; KSeek (SeekEnd (-1)); KRead 5 [live]; KRead 5 [live]]) =
    [RAns (AOk [1;2]); RAns (AOk [3]); RAns (AOk [4;5;6]); RPos 2; RNone; RAns (AEnd [3;4;5;6;7]); RPos 6; RAns AWaiting; RAns (AOk [7])]%N
  /\ runs 3 empty_db [FilesChanged; Appended 0 [1;2;3;4;5;6;7]%N] ex_db1 /\ good_schedule 0%N ex_db1 [live] /\ prompt [live].
Proof.
  split; [vm_compute; reflexivity|]. split; [apply C46_example|]. split; [|constructor; [discriminate|constructor]].
  constructor; [|constructor]. constructor; [|constructor]. split; [reflexivity|].
  apply (C47_others 3 ex_db1 [] ex_db1 0%N); [lia|eexists; apply C46_example|constructor|constructor].
Qed.
Example C90_to_vec_example : into_vec (repeat live 9) ex_reader = AOk [1;2;3;4;5;6;7]%N /\
  reads_as 3 ex_db1 0 [1;2;3;4;5;6;7]%N.
Proof.
  split; [vm_compute; reflexivity|]. assert (W : wf 3 ex_db1) by (eapply runs_wf; [lia|apply wf_empty|apply C46_example]).
  pose proof (reads_as_wf 3 ex_db1 0%N W) as X. set (c := data_of _) in X. assert (E : c = [1;2;3;4;5;6;7]%N) by (vm_compute; reflexivity). rewrite <- E. exact X.
Qed.
(* tokio's read loses the bytes of a poll that ends in Pending: reading with
   buffers of 4 bytes gives 4..7 and then the end; 1..3 never appear *)
Theorem C90_read_refuted :
  fst (serve ex_reader (repeat (KRead 4 (repeat live 9)) 3)) = [RAns (AOk [4;5;6;7]); RAns (AOk []); RAns (AOk [])]%N.
Proof. vm_compute. reflexivity. Qed.
(* a seek while a dropped call's blocks are under way: the blocks that then come
   in are taken for those at the new position *)
Theorem C90_seek_refuted :
  fst (serve ex_reader [KExact 1 [[]]; KSeek (SeekStart 6); KExact 1 [live]]) = [RAns AWaiting; RPos 6; RAns (AOk [1])]%N.
Proof. vm_compute. reflexivity. Qed.
(* the failing reader, and the clone that works *)
Example C90_failure_example :
  fst (serve ex_reader [KExact 1 [[None; Some (Turn ex_db1 false)]]; KExact 1 (repeat live 9); KNext (repeat live 9); KSeek (SeekStart 0); KRead 3 (repeat live 9); KClone; KRead 3 (repeat live 9)]) =
    [RAns AFailed; RAns AWaiting; RAns AWaiting; RPos 0; RAns AWaiting; RNone; RAns (AOk [1;2;3])]%N
  /\ r_requests (snd (serve ex_reader [KNext [[]]])) = [[1]]%N.
Proof. split; vm_compute; reflexivity. Qed.

Print Assumptions C90_handle.
Print Assumptions C90_poll_returns.
Print Assumptions C90_to_vec.
Print Assumptions C90_remaining_refuted.
Print Assumptions C90_failure_refuted.
Print Assumptions C90_failure_reported.
Print Assumptions C90_read_refuted.
Print Assumptions C90_seek_refuted.
