(* Facts about the asynchronous file reader (FilesAsync.v). *)
From Verif Require Import Base Key KeyProofs Files FilesProofs FilesRead FilesAsync.
From Coq Require Import Permutation Sorted ZifyBool Lia Arith.
Local Open Scope nat_scope.

(* ---------- every poll comes back ---------- *)
Definition weight (ts : list (option turn)) (left : nat) (r : reader) : nat :=
  left + 3 * length ts + 2 * length (r_responses r) + (if r_requested r then 0 else 1).
Lemma turn_weight ts t ts' left r : next_turn ts = (t, ts') -> weight ts' left (maybe_turn t r) <= weight ts left r.
Proof.
  unfold next_turn, weight. destruct ts as [|t0 ts0]; intros [= <- <-]; [cbn; lia|].
  destruct t0 as [t0|]; cbn [maybe_turn]; [|cbn; lia]. unfold task_turn. destruct (r_requests r); cbn; [lia|]. rewrite app_length. cbn. lia.
Qed.
Lemma fetch_weight ts left r r' : fetch_blocks r = (r', FReady true) -> weight ts left r' < weight ts left r.
Proof.
  unfold fetch_blocks, weight. destruct (r_requested r).
  - destruct (r_responses r) as [|[bs|] q]; intros [= <-]. cbn. lia.
  - destruct (map bi_id (next_blocks (r_c r))); intros [= <-]. cbn. lia.
Qed.
Lemma consume_out n l cur off l' c' o' out : consume n l cur off = Some (l', c', o', Some out) -> out <> [].
Proof.
  revert cur off; induction l as [|[i b] r IH]; intros cur off; cbn [consume]; [discriminate|]. destruct (length b <? off); [discriminate|].
  destruct (firstn n (skipn off b)) as [|x q]; [apply IH|]. intros [= <- <- <- <-]. discriminate.
Qed.
Lemma nb_out n c c' out : non_blocking_read n c = Some (c', ReadBytes out) -> out <> [].
Proof.
  unfold non_blocking_read. destruct (match c_loaded c with [] => true | (i, _) :: _ => negb (i =? c_current c) end).
  - destruct (more c); discriminate.
  - destruct (consume n (c_loaded c) (c_current c) (c_offset c)) as [[[[l cur] off] [o|]]|] eqn:E; [|destruct (more _); discriminate|discriminate].
    intros [= <- <-]. eapply consume_out, E.
Qed.
Lemma poll_loop_returns fuel : forall ts n buf r, weight ts (n - length buf) r < fuel ->
  match poll_loop fuel ts n buf r with Done (_, PStuck) => False | _ => True end.
Proof.
  induction fuel as [|k IH]; intros ts n buf r W; [lia|]. cbn [poll_loop]. destruct (next_turn ts) as [t ts'] eqn:NT.
  pose proof (turn_weight ts t ts' (n - length buf) r NT) as TW. set (r1 := maybe_turn t r) in *.
  destruct (non_blocking_read (n - length buf) (r_c r1)) as [[c' [|out|]]|] eqn:E; try exact I.
  - destruct (fetch_blocks (set_c c' r1)) as [r' [|[|]|]] eqn:F; try exact I. apply IH. pose proof (fetch_weight ts' (n - length buf) _ _ F) as FW. unfold weight in *. cbn in *. lia.
  - destruct (n - length (buf ++ out) =? 0) eqn:Z; [exact I|]. apply IH. rewrite app_length in *. pose proof (nb_out _ _ _ _ E) as NO. destruct out; [congruence|]. unfold weight in *. cbn in *. lia.
Qed.
Lemma next_loop_returns fuel : forall ts r, weight ts 0 r < fuel -> match next_loop fuel ts r with Done (_, NStuck) => False | _ => True end.
Proof.
  induction fuel as [|k IH]; intros ts r W; [lia|]. cbn [next_loop]. destruct (next_turn ts) as [t ts'] eqn:NT.
  pose proof (turn_weight ts t ts' 0 r NT) as TW. set (r1 := maybe_turn t r) in *.
  destruct (read_block (r_c r1)) as [[c' [|out|]]|] eqn:E; try exact I.
  destruct (fetch_blocks (set_c c' r1)) as [r' [|[|]|]] eqn:F; try exact I. apply IH. pose proof (fetch_weight ts' 0 _ _ F) as FW. unfold weight in *. cbn in *. lia.
Qed.

(* ---------- the invariant ---------- *)
(* what was requested, and what came back, are blocks from the current one on *)
Definition channel (r : reader) (ds : list bytes) : Prop :=
  let c := r_c r in
  if r_requested r then
    c_loaded c = [] /\ c_current c < length ds /\
    exists k, 0 < k /\
      (r_requests r = [map bi_id (firstn k (skipn (c_current c) (c_blocks c)))] /\ r_responses r = [] \/
       r_requests r = [] /\ exists bs, r_responses r = [Some bs] /\ map snd bs = firstn k (skipn (c_current c) ds))
  else r_requests r = [] /\ r_responses r = [].
Record rok (r : reader) (ds : list bytes) : Prop := { rk_ok : ok (r_c r) ds; rk_ch : channel r ds }.
Definition pos (r : reader) (ds : list bytes) : nat := here (r_c r) ds.
Definition healthy (l : list block_info) (ds : list bytes) (t : turn) : Prop := t_ok t = true /\ stored (t_db t) l ds.
Definition all_healthy (l : list block_info) (ds : list bytes) (ts : list (option turn)) : Prop :=
  Forall (fun t => match t with Some t => healthy l ds t | None => True end) ts.

Lemma open_rok c ds : ok c ds -> rok (open_reader c) ds.
Proof. intros K. constructor; [exact K|]. unfold channel. cbn. split; reflexivity. Qed.
Lemma turn_rok r ds t : rok r ds -> (match t with Some t => healthy (c_blocks (r_c r)) ds t | None => True end) ->
  rok (maybe_turn t r) ds /\ r_c (maybe_turn t r) = r_c r /\ r_requested (maybe_turn t r) = r_requested r /\
  (t <> None -> r_requested r = true -> r_responses (maybe_turn t r) <> []) /\ (r_responses r <> [] -> r_responses (maybe_turn t r) <> []).
Proof.
  intros [K C] H. destruct t as [t|]; [|cbn; split; [constructor; assumption|]; split; [reflexivity|]; split; [reflexivity|]; split; [congruence|auto]].
  cbn [maybe_turn]. unfold task_turn. destruct (r_requests r) as [|ids q] eqn:Q.
  - split; [constructor; assumption|]. split; [reflexivity|]. split; [reflexivity|]. split; [|auto]. intros _ Rq. unfold channel in C. rewrite Rq in C. destruct C as (_ & _ & k & _ & [[X _]|(_ & bs & Y & _)]); [rewrite Q in X; discriminate|rewrite Y; discriminate].
  - destruct H as (Ok & St). rewrite Ok. split; [|cbn; repeat split; intros; destruct (r_responses r); discriminate]. constructor; [exact K|]. unfold channel in *. cbn.
    destruct (r_requested r); [|destruct C as [C _]; rewrite Q in C; discriminate]. destruct C as (L & Cu & k & Kp & [[X Y]|(X & _)]); [|rewrite Q in X; discriminate].
    split; [exact L|]. split; [exact Cu|]. exists k. split; [exact Kp|]. right. rewrite Q in X. injection X as -> ->. split; [reflexivity|]. rewrite Y. eexists. split; [reflexivity|].
    apply load_spec, stored_sub, St.
Qed.
Lemma fetch_rok r ds : rok r ds -> c_current (r_c r) < length ds ->
  match fetch_blocks r with
  | (r', FPending) => r' = r /\ r_requested r = true /\ r_responses r = []
  | (r', FReady true) => rok r' ds /\ c_blocks (r_c r') = c_blocks (r_c r) /\ c_current (r_c r') = c_current (r_c r) /\ c_offset (r_c r') = c_offset (r_c r) /\
      (if r_requested r then at_front (r_c r') /\ r_requested r' = false else r_requested r' = true)
  | _ => False
  end.
Proof.
  intros [K C] L. unfold fetch_blocks. unfold channel in C. destruct (r_requested r) eqn:Rq.
  - destruct C as (E & _ & k & Kp & [[X Y]|(X & bs & Y & M)]); rewrite Y; [repeat split; assumption|].
    assert (Ok' : ok (Contents (c_blocks (r_c r)) (c_loaded (r_c r) ++ number_from (c_current (r_c r)) (map snd bs)) (c_current (r_c r)) (c_offset (r_c r)) (c_buffer (r_c r))) ds).
    { constructor; cbn; [apply K| |apply K]. exists (c_current (r_c r)), k. rewrite E, M. reflexivity. }
    split; [constructor; [exact Ok'|unfold channel; cbn; split; [exact X|reflexivity]]|]. cbn. repeat split.
    destruct (nth_error ds (c_current (r_c r))) as [d|] eqn:N; [|apply nth_error_None in N; lia]. unfold at_front. cbn. rewrite E, M, (skipn_nth _ _ _ N). destruct k; [lia|]. cbn. eexists _, _. reflexivity.
  - destruct C as [X Y]. assert (LL := laid_length _ _ _ (ok_laid _ _ K)). unfold next_blocks.
    set (m := Nat.max 1 _). assert (NE : exists b q, skipn (c_current (r_c r)) (c_blocks (r_c r)) = b :: q).
    { destruct (skipn (c_current (r_c r)) (c_blocks (r_c r))) as [|b q] eqn:SK; [|exists b, q; reflexivity]. assert (Z : length (skipn (c_current (r_c r)) (c_blocks (r_c r))) = 0) by (rewrite SK; reflexivity). rewrite skipn_length in Z. lia. }
    destruct NE as (b & q & SK). destruct (map bi_id (firstn m (skipn (c_current (r_c r)) (c_blocks (r_c r))))) as [|i ids] eqn:EI.
    { rewrite SK in EI. assert (m <> 0) by lia. destruct m; [congruence|discriminate]. }
    split; [|cbn; repeat split]. constructor; cbn.
    + constructor; cbn; [apply K|exists 0, 0; reflexivity|apply K].
    + unfold channel. cbn. split; [reflexivity|]. split; [exact L|]. exists m. split; [lia|]. left. rewrite X, Y, EI. split; reflexivity.
Qed.
(* a step of reading changes nothing while a request is out *)
Lemma set_rok r ds c' : rok r ds -> ok c' ds -> c_blocks c' = c_blocks (r_c r) -> (r_requested r = true -> c' = r_c r) -> rok (set_c c' r) ds.
Proof.
  intros [K C] K' B H. constructor; [exact K'|]. unfold channel in *. cbn. destruct (r_requested r); [rewrite (H eq_refl); exact C|exact C].
Qed.
Lemma not_front_requested r ds : rok r ds -> r_requested r = true -> ~ at_front (r_c r).
Proof. intros [_ C] H (b & q & E). unfold channel in C. rewrite H in C. destruct C as (C & _). rewrite C in E. discriminate. Qed.
Lemma front_reads n c ds : 0 < n -> ok c ds -> at_front c -> c_offset c = 0 -> exists c' out, non_blocking_read n c = Some (c', ReadBytes out).
Proof.
  intros Hn K (b & q & E) O. unfold non_blocking_read. rewrite E, Nat.eqb_refl. cbn [negb].
  assert (Lb : 0 < length b).
  { destruct (ok_loaded _ _ K) as (i & k & EL). rewrite E in EL. symmetry in EL. destruct (number_from_hd _ _ _ _ _ EL) as (_ & l' & EF & _).
    assert (I : In b (firstn k (skipn i ds))) by (rewrite EF; left; reflexivity).
    pose proof (laid_nonempty _ _ _ (ok_laid _ _ K)) as F. rewrite Forall_forall in F. apply F. rewrite <- (firstn_skipn i ds). apply in_or_app. right. rewrite <- (firstn_skipn k (skipn i ds)). apply in_or_app. left. exact I. }
  cbn [consume]. rewrite O. cbn [skipn]. destruct (length b <? 0) eqn:Z; [lia|]. destruct n; [lia|]. destruct b as [|x b]; [cbn in Lb; lia|]. cbn [firstn]. eexists _, _. reflexivity.
Qed.
Lemma front_dec c : at_front c \/ ~ at_front c.
Proof.
  unfold at_front. destruct (c_loaded c) as [|[i b] q]; [right; intros (? & ? & [=])|]. destruct (Nat.eq_dec i (c_current c)) as [->|N]; [left; eexists _, _; reflexivity|right; intros (? & ? & [= X _ _]); congruence].
Qed.

(* one round of reading *)
Lemma round_spec n r ds : 0 < n -> rok r ds ->
  exists c' x, non_blocking_read n (r_c r) = Some (c', x) /\ rok (set_c c' r) ds /\ c_blocks c' = c_blocks (r_c r) /\
  match x with
  | ReadBytes out => out <> [] /\ length out <= n /\ out = firstn (length out) (skipn (pos r ds) (concat ds)) /\ here c' ds = pos r ds + length out /\ r_requested r = false
  | Eof => pos r ds = length (concat ds) /\ here c' ds = pos r ds /\ c_current c' = length ds /\ r_requested r = false
  | NeedBlocks => here c' ds = pos r ds /\ c_current c' < length ds /\
      (at_front (r_c r) -> c_offset c' = 0 /\ c_offset (r_c r) <> 0) /\ (~ at_front (r_c r) -> c' = r_c r)
  end.
Proof.
  intros Hn R. destruct (nb_read_spec n (r_c r) ds Hn (rk_ok _ _ R)) as (c' & x & E & K & B & _ & D).
  exists c', x. split; [exact E|].
  assert (Q : r_requested r = true -> c' = r_c r /\ x = NeedBlocks).
  { intros Rq. pose proof (rk_ch _ _ R) as C. unfold channel in C. rewrite Rq in C. destruct C as (C & L & _).
    unfold non_blocking_read in E. rewrite C, (more_spec _ _ (rk_ok _ _ R)) in E. replace (c_current (r_c r) <? length ds) with true in E by lia. injection E as <- <-. split; reflexivity. }
  split; [apply set_rok; try assumption; intros X; apply (Q X)|]. split; [exact B|]. destruct x as [|out|].
  - destruct D as (D1 & D2 & D3 & D4). split; [exact D1|]. split; [exact D2|]. split; [|exact D4]. intros AF. split; [apply D3, AF|]. intros O.
    destruct (front_reads n (r_c r) ds Hn (rk_ok _ _ R) AF O) as (c2 & o & X). congruence.
  - destruct D as (D1 & D2 & D3 & D4). repeat split; try assumption. destruct (r_requested r); [|reflexivity]. destruct (Q eq_refl); discriminate.
  - destruct D as (D1 & D2 & D3). repeat split; try assumption. destruct (r_requested r); [|reflexivity]. destruct (Q eq_refl); discriminate.
Qed.

Lemma slice_app {A} (l : list A) p (a b : list A) : a = firstn (length a) (skipn p l) -> b = firstn (length b) (skipn (p + length a) l) ->
  a ++ b = firstn (length (a ++ b)) (skipn p l).
Proof.
  intros Ha Hb. rewrite app_length. rewrite <- (firstn_skipn (length a) (skipn p l)) at 1. rewrite <- Ha at 1.
  assert (La : length a <= length (skipn p l)) by (rewrite Ha; rewrite firstn_length; lia).
  rewrite firstn_app, firstn_all2 by lia. replace (length a + length b - length a) with (length b) by lia. f_equal.
  rewrite skipn_skipn'. exact Hb.
Qed.

(* ---------- polls ---------- *)
(* the reader has data at hand: loaded, or answered and about to be received *)
Definition at_hand (ts : list (option turn)) (r : reader) : Prop :=
  at_front (r_c r) \/ r_requested r = true /\ (hd None ts <> None \/ r_responses r <> []).
Lemma poll_spec ds fuel : forall ts n buf r, length buf < n -> rok r ds -> all_healthy (c_blocks (r_c r)) ds ts -> weight ts (n - length buf) r < fuel ->
  exists r' p out, poll_loop fuel ts n buf r = Done (r', p) /\ rok r' ds /\ c_blocks (r_c r') = c_blocks (r_c r) /\
    out = firstn (length out) (skipn (pos r ds) (concat ds)) /\ pos r' ds = pos r ds + length out /\
    match p with
    | PReady b => b = buf ++ out /\ length b <= n /\ r_requested r' = false /\ (length b = n \/ pos r' ds = length (concat ds) /\ c_current (r_c r') = length ds)
    | PPending b => b = buf ++ out /\ length b < n /\ r_requested r' = true /\
        (c_offset (r_c r') = 0 \/ out = [] /\ c_offset (r_c r') = c_offset (r_c r)) /\
        (at_hand ts r -> out <> [] \/ c_offset (r_c r) <> 0 /\ c_offset (r_c r') = 0)
    | _ => False
    end.
Proof.
  induction fuel as [|k IH]; intros ts n buf r Hn R Hh W; [lia|]. cbn [poll_loop]. destruct (next_turn ts) as [t ts'] eqn:NT.
  pose proof (turn_weight ts t ts' (n - length buf) r NT) as TW.
  assert (Ht : (match t with Some t => healthy (c_blocks (r_c r)) ds t | None => True end) /\ all_healthy (c_blocks (r_c r)) ds ts' /\ hd None ts = t).
  { destruct ts as [|t0 ts0]; injection NT as <- <-; [split; [exact I|split; [constructor|reflexivity]]|]. inversion Hh; subst. split; [assumption|split; [assumption|reflexivity]]. }
  destruct Ht as (Ht & Hh' & Ht2). destruct (turn_rok r ds t R Ht) as (R1 & C1 & Q1 & P1 & P2). set (r1 := maybe_turn t r) in *.
  assert (PO : pos r1 ds = pos r ds) by (unfold pos; rewrite C1; reflexivity).
  assert (AH : at_hand ts r -> at_front (r_c r1) \/ r_requested r1 = true /\ r_responses r1 <> []).
  { rewrite C1, Q1. intros [X|(X & [Y|Y])]; [left; exact X|right; split; [exact X|]..]; [apply P1; [congruence|exact X]|apply P2, Y]. }
  destruct (round_spec (n - length buf) r1 ds ltac:(lia) R1) as (c' & x & E & R2 & B2 & D). rewrite E.
  set (r2 := set_c c' r1) in *. assert (B2' : c_blocks (r_c r2) = c_blocks (r_c r)) by (cbn; rewrite B2, C1; reflexivity).
  destruct x as [|out|].
  - destruct D as (D1 & D2 & D3 & D4). pose proof (fetch_rok r2 ds R2 D2) as F. destruct (fetch_blocks r2) as [r3 f] eqn:EF.
    destruct f as [|[|]|]; try contradiction.
    + destruct F as (-> & Rq & Rs). exists r2, (PPending buf), []. split; [reflexivity|]. split; [exact R2|]. split; [exact B2'|]. split; [reflexivity|]. split; [cbn; unfold pos in *; cbn; lia|].
      split; [rewrite app_nil_r; reflexivity|]. split; [lia|]. split; [exact Rq|].
      assert (NF := not_front_requested r1 ds R1 Rq). assert (CC : c' = r_c r1) by (apply D4, NF).
      split; [right; rewrite <- C1; cbn; rewrite CC; auto|]. intros X. exfalso. destruct (AH X) as [Y|(_ & Y)]; [exact (NF Y)|exact (Y Rs)].
    + destruct F as (R3 & B3 & Cu & Of & Fr). assert (B3' : c_blocks (r_c r3) = c_blocks (r_c r)) by (rewrite B3; exact B2').
      assert (W3 : weight ts' (n - length buf) r3 < k) by (pose proof (fetch_weight ts' (n - length buf) _ _ EF) as FW; unfold weight in *; cbn in *; lia).
      assert (PO3 : pos r3 ds = pos r ds) by (unfold pos, here in *; rewrite Cu, Of; cbn in *; lia).
      destruct (IH ts' n buf r3 Hn R3 ltac:(rewrite B3'; exact Hh') W3) as (r' & p & out & P & R' & B' & O1 & O2 & O3).
      exists r', p, out. split; [exact P|]. split; [exact R'|]. split; [congruence|]. rewrite PO3 in O1, O2. split; [exact O1|]. split; [exact O2|].
      destruct p as [b|b|b|]; try exact O3. destruct O3 as (G1 & G2 & G3 & G4 & G5). split; [exact G1|]. split; [exact G2|]. split; [exact G3|].
      assert (SAME : ~ at_front (r_c r1) -> c_offset (r_c r3) = c_offset (r_c r)) by (intros NF; rewrite Of; cbn; rewrite (D4 NF), C1; reflexivity).
      split.
      * destruct G4 as [G4|(G4 & G7)]; [left; exact G4|]. destruct (front_dec (r_c r1)) as [AF|NF].
        -- left. rewrite G7, Of. apply D3, AF.
        -- right. rewrite G7, (SAME NF). auto.
      * intros X. destruct (front_dec (r_c r1)) as [AF|NF].
        -- destruct (D3 AF) as (Z1 & Z2). right. rewrite C1 in Z2. split; [exact Z2|]. destruct G4 as [G4|(_ & G7)]; [exact G4|]. rewrite G7, Of. exact Z1.
        -- destruct (AH X) as [Y|(Y & _)]; [contradiction|]. assert (Q2 : r_requested r2 = true) by exact Y. rewrite Q2 in Fr. destruct Fr as (Fr & _).
           rewrite <- (SAME NF). apply G5. left. exact Fr.
  - destruct D as (D1 & D2 & D3 & D4 & D5). destruct (n - length (buf ++ out) =? 0) eqn:Z.
    + exists r2, (PReady (buf ++ out)), out. rewrite PO in *. rewrite app_length in *. repeat match goal with |- _ /\ _ => split end; try assumption; try reflexivity; try lia.
    + assert (W3 : weight ts' (n - length (buf ++ out)) r2 < k).
      { rewrite app_length in *. destruct out as [|y o]; [congruence|]. unfold weight in *. cbn in *. lia. }
      destruct (IH ts' n (buf ++ out) r2 ltac:(lia) R2 ltac:(rewrite B2'; exact Hh') W3) as (r' & p & o & P & R' & B' & O1 & O2 & O3).
      exists r', p, (out ++ o). assert (P2' : pos r2 ds = pos r ds + length out) by (unfold pos at 1; cbn; rewrite <- PO; exact D4).
      rewrite P2' in O1, O2. rewrite PO in D3. split; [exact P|]. split; [exact R'|]. split; [congruence|]. split; [apply slice_app; assumption|]. split; [rewrite app_length; lia|].
      rewrite app_assoc. destruct p as [b|b|b|]; try exact O3. destruct O3 as (G1 & G2 & G3 & G4 & G5). split; [exact G1|]. split; [exact G2|]. split; [exact G3|].
      assert (NE : out ++ o <> []) by (destruct out; [congruence|discriminate]).
      split; [|intros _; left; exact NE]. left. destruct G4 as [G4|(-> & G7)]; [exact G4|].
      (* nothing more was read, yet the poll is pending: the block was used up *)
      assert (AF : at_front c').
      { unfold non_blocking_read in E. destruct (match c_loaded (r_c r1) with [] => true | (i, _) :: _ => negb (i =? c_current (r_c r1)) end) eqn:Nd; [destruct (more (r_c r1)); discriminate|].
        destruct (consume _ _ _ _) as [[[[l cu] of] [o|]]|] eqn:Cs; [|destruct (more _); discriminate|discriminate]. injection E as <- <-.
        unfold at_front. cbn. revert Cs. destruct (c_loaded (r_c r1)) as [|[i b0] q] eqn:EL; [discriminate Nd|]. apply negb_false_iff, Nat.eqb_eq in Nd. subst i. rewrite <- EL.
        destruct (ok_loaded _ _ (rk_ok _ _ R1)) as (i & kk & EN). rewrite EN.
        assert (HI : i = c_current (r_c r1)) by (rewrite EL in EN; symmetry in EN; apply number_from_hd in EN; tauto). rewrite HI.
        generalize (firstn kk (skipn (c_current (r_c r1)) ds)). intros L. generalize (c_current (r_c r1)). generalize (c_offset (r_c r1)). clear. induction L as [|b L IHL]; intros off cur; cbn [number_from consume]; [discriminate|].
        destruct (length b <? off); [discriminate|]. destruct (firstn (n - length buf) (skipn off b)) as [|y z] eqn:FF; [apply IHL|]. intros [= <- <- <- <-]. eexists _, _. reflexivity. }
      destruct (G5 (or_introl AF)) as [X|(_ & X)]; [congruence|exact X].
  - destruct D as (D1 & D2 & D3 & D4). exists r2, (PReady buf), []. rewrite app_nil_r. cbn [length]. split; [reflexivity|]. split; [exact R2|]. split; [exact B2'|]. split; [reflexivity|].
    assert (P2' : pos r2 ds = pos r ds) by (unfold pos at 1; cbn; lia). split; [lia|]. split; [reflexivity|]. split; [lia|]. split; [cbn; congruence|]. right. split; [lia|exact D3].
Qed.

(* ---------- the stream ---------- *)
Lemma block_round r ds : rok r ds ->
  exists c' x, read_block (r_c r) = Some (c', x) /\ rok (set_c c' r) ds /\ c_blocks c' = c_blocks (r_c r) /\
  match x with
  | ReadBytes l => l = firstn (length l) (skipn (pos r ds) (concat ds)) /\ here c' ds = pos r ds + length l /\ r_requested r = false /\ c_current (r_c r) < length ds
  | Eof => pos r ds = length (concat ds) /\ here c' ds = pos r ds /\ c_current c' = length ds /\ r_requested r = false /\ c_current (r_c r) = length ds
  | NeedBlocks => here c' ds = pos r ds /\ c_current c' < length ds /\ c_current c' = c_current (r_c r) /\ ~ at_front (r_c r)
  end.
Proof.
  intros R. pose proof (rk_ok _ _ R) as K. set (c := r_c r) in *.
  assert (REST : forall c1, read_block c = Some (c1, if more c1 then NeedBlocks else Eof) -> ~ at_front c ->
     (c1 = c \/ exists x, c_loaded c = x :: c_loaded c1 /\ c1 = Contents (c_blocks c) (c_loaded c1) (c_current c) (c_offset c) (c_buffer c)) ->
     exists c' x, read_block c = Some (c', x) /\ rok (set_c c' r) ds /\ c_blocks c' = c_blocks c /\
     match x with
     | ReadBytes l => l = firstn (length l) (skipn (pos r ds) (concat ds)) /\ here c' ds = pos r ds + length l /\ r_requested r = false /\ c_current c < length ds
     | Eof => pos r ds = length (concat ds) /\ here c' ds = pos r ds /\ c_current c' = length ds /\ r_requested r = false /\ c_current c = length ds
     | NeedBlocks => here c' ds = pos r ds /\ c_current c' < length ds /\ c_current c' = c_current c /\ ~ at_front c
     end).
  { intros c1 E NF C1.
    assert (P1 : ok c1 ds /\ here c1 ds = here c ds /\ c_blocks c1 = c_blocks c /\ c_current c1 = c_current c).
    { destruct C1 as [->|(x & EL & E1)]; [split; [exact K|repeat split]|]. rewrite E1. unfold here. cbn. split; [|repeat split].
      constructor; cbn; [apply K| |apply K]. destruct (ok_loaded _ _ K) as (i & k & EN). rewrite EL in EN. destruct x as [xi xb]. symmetry in EN.
      destruct (number_from_hd _ _ _ _ _ EN) as (-> & l' & EF & ->). exists (S xi), (k - 1). f_equal.
      pose proof (firstn_split k (skipn xi ds) [xb] l' EF) as X. rewrite X, skipn_skipn'. cbn [length]. rewrite Nat.add_1_r. reflexivity. }
    destruct P1 as (K1 & H1 & B1 & CC). rewrite (more_spec _ _ K1) in E. exists c1, (if c_current c1 <? length ds then NeedBlocks else Eof). split; [exact E|].
    assert (RQ : r_requested r = true -> c1 = c /\ c_current c < length ds).
    { intros Rq. pose proof (rk_ch _ _ R) as C. unfold channel in C. rewrite Rq in C. destruct C as (C & L & _). fold c in C, L. split; [|exact L]. destruct C1 as [C1|(x & EL & _)]; [exact C1|rewrite C in EL; discriminate]. }
    split; [apply set_rok; try assumption; intros X; apply (RQ X)|]. split; [exact B1|].
    destruct (c_current c1 <? length ds) eqn:L.
    - split; [exact H1|]. split; [lia|]. split; [exact CC|exact NF].
    - assert (E1 : c_current c1 = length ds /\ c_offset c1 = 0) by (destruct (ok_pos _ _ K1) as [(L' & _)|X]; [lia|exact X]).
      assert (X : here c1 ds = length (concat ds)) by (unfold here; destruct E1 as (E1 & O); rewrite E1, O, firstn_all; lia).
      split; [unfold pos; fold c; lia|]. split; [exact H1|]. split; [apply E1|]. split; [|lia]. destruct (r_requested r) eqn:Rq; [|reflexivity]. destruct (RQ eq_refl). lia. }
  unfold read_block in REST |- *. destruct (c_loaded c) as [|[i b] q] eqn:EL.
  - apply (REST c eq_refl); [intros (? & ? & X); congruence|left; reflexivity].
  - destruct (Nat.eqb_spec i (c_current c)) as [->|NE].
    + clear REST. destruct (ok_loaded _ _ K) as (i & k & EN). rewrite EL in EN. symmetry in EN. destruct (number_from_hd _ _ _ _ _ EN) as (-> & l' & EF & ->).
      assert (Lt : c_current c < length ds) by (destruct (Nat.lt_ge_cases (c_current c) (length ds)); [assumption|rewrite skipn_all2, firstn_nil in EF by lia; discriminate]).
      assert (Nth : nth_error ds (c_current c) = Some b).
      { destruct k; [discriminate|]. destruct (nth_error ds (c_current c)) as [z|] eqn:Nz; [|apply nth_error_None in Nz; lia]. rewrite (skipn_nth _ _ _ Nz) in EF. cbn in EF. congruence. }
      assert (OB : c_offset c <= length b).
      { destruct (ok_pos _ _ K) as [(_ & d & X & O)|(X & _)]; [rewrite X in Nth; injection Nth as ->; exact O|lia]. }
      assert (RQ : r_requested r = false).
      { destruct (r_requested r) eqn:Rq; [|reflexivity]. exfalso. apply (not_front_requested r ds R Rq). exists b, (number_from (S (c_current c)) l'). exact EL. }
      destruct (Nat.ltb_spec (length b) (c_offset c)); [lia|]. eexists _, _. split; [reflexivity|]. split; [|split; [reflexivity|]].
      * apply set_rok; [exact R| |reflexivity|congruence]. constructor; cbn.
        -- apply K.
        -- exists (S (c_current c)), (k - 1). f_equal. pose proof (firstn_split k (skipn (c_current c) ds) [b] l' EF) as X. rewrite X, skipn_skipn'. cbn [length]. rewrite Nat.add_1_r. reflexivity.
        -- destruct (Nat.lt_ge_cases (S (c_current c)) (length ds)) as [L|L]; [left|right; split; [lia|reflexivity]].
           split; [exact L|]. destruct (nth_error ds (S (c_current c))) as [d|] eqn:X; [|apply nth_error_None in X; lia]. exists d. split; [first [exact X|reflexivity]|lia].
      * split; [unfold pos, here; fold c; rewrite (content_at _ _ _ _ Nth OB); symmetry; apply firstn_app_exact|].
        split; [|split; [exact RQ|exact Lt]]. unfold pos, here. fold c. cbn [c_current c_offset]. rewrite (firstn_S_nth _ _ _ Nth), concat_app, app_length. cbn. rewrite app_nil_r, skipn_length. lia.
    + apply (REST (Contents (c_blocks c) q (c_current c) (c_offset c) (c_buffer c)) eq_refl); [intros (? & ? & X); congruence|]. right. exists (i, b). split; reflexivity.
Qed.
Lemma next_spec ds fuel : forall ts r, rok r ds -> all_healthy (c_blocks (r_c r)) ds ts -> weight ts 0 r < fuel ->
  exists r' p, next_loop fuel ts r = Done (r', p) /\ rok r' ds /\ c_blocks (r_c r') = c_blocks (r_c r) /\
    match p with
    | NReady (Some l) => l = firstn (length l) (skipn (pos r ds) (concat ds)) /\ pos r' ds = pos r ds + length l /\ r_requested r' = false /\ c_current (r_c r) < length ds
    | NReady None => pos r ds = length (concat ds) /\ pos r' ds = pos r ds /\ c_current (r_c r') = length ds /\ r_requested r' = false /\ c_current (r_c r) = length ds
    | NPending => pos r' ds = pos r ds /\ r_requested r' = true /\ ~ at_hand ts r /\ c_current (r_c r) < length ds
    | _ => False
    end.
Proof.
  induction fuel as [|k IH]; intros ts r R Hh W; [lia|]. cbn [next_loop]. destruct (next_turn ts) as [t ts'] eqn:NT.
  pose proof (turn_weight ts t ts' 0 r NT) as TW.
  assert (Ht : (match t with Some t => healthy (c_blocks (r_c r)) ds t | None => True end) /\ all_healthy (c_blocks (r_c r)) ds ts' /\ hd None ts = t).
  { destruct ts as [|t0 ts0]; injection NT as <- <-; [split; [exact I|split; [constructor|reflexivity]]|]. inversion Hh; subst. split; [assumption|split; [assumption|reflexivity]]. }
  destruct Ht as (Ht & Hh' & Ht2). destruct (turn_rok r ds t R Ht) as (R1 & C1 & Q1 & P1 & P2). set (r1 := maybe_turn t r) in *.
  assert (PO : pos r1 ds = pos r ds) by (unfold pos; rewrite C1; reflexivity).
  assert (AH : at_hand ts r -> at_front (r_c r1) \/ r_requested r1 = true /\ r_responses r1 <> []).
  { rewrite C1, Q1. intros [X|(X & [Y|Y])]; [left; exact X|right; split; [exact X|]..]; [apply P1; [congruence|exact X]|apply P2, Y]. }
  destruct (block_round r1 ds R1) as (c' & x & E & R2 & B2 & D). rewrite E.
  set (r2 := set_c c' r1) in *. assert (B2' : c_blocks (r_c r2) = c_blocks (r_c r)) by (cbn; rewrite B2, C1; reflexivity).
  destruct x as [|l|].
  - destruct D as (D1 & D2 & D3 & D4). pose proof (fetch_rok r2 ds R2 D2) as F. destruct (fetch_blocks r2) as [r3 f] eqn:EF.
    destruct f as [|[|]|]; try contradiction.
    + destruct F as (-> & Rq & Rs). exists r2, NPending. split; [reflexivity|]. split; [exact R2|]. split; [exact B2'|]. split; [cbn; unfold pos in *; cbn; lia|]. split; [exact Rq|].
      split; [|rewrite <- C1; lia]. intros X. destruct (AH X) as [Y|(_ & Y)]; [exact (D4 Y)|exact (Y Rs)].
    + destruct F as (R3 & B3 & Cu & Of & Fr). assert (B3' : c_blocks (r_c r3) = c_blocks (r_c r)) by (rewrite B3; exact B2').
      assert (W3 : weight ts' 0 r3 < k) by (pose proof (fetch_weight ts' 0 _ _ EF) as FW; unfold weight in *; cbn in *; lia).
      assert (PO3 : pos r3 ds = pos r ds) by (unfold pos, here in *; rewrite Cu, Of; cbn in *; lia).
      destruct (IH ts' r3 R3 ltac:(rewrite B3'; exact Hh') W3) as (r' & p & P & R' & B' & O3).
      exists r', p. split; [exact P|]. split; [exact R'|]. split; [congruence|]. rewrite PO3 in O3.
      assert (CC : c_current (r_c r3) = c_current (r_c r)) by (rewrite Cu; cbn; rewrite D3, C1; reflexivity). rewrite CC in O3.
      destruct p as [|[l|]| |]; try exact O3. destruct O3 as (G1 & G2 & G3 & G4). split; [exact G1|]. split; [exact G2|]. split; [|exact G4].
      intros X. destruct (AH X) as [Y|(Y & _)]; [exact (D4 Y)|]. assert (Q2 : r_requested r2 = true) by exact Y. rewrite Q2 in Fr. destruct Fr as (Fr & _). apply G3. left. exact Fr.
  - destruct D as (D1 & D2 & D3 & D4). exists r2, (NReady (Some l)). rewrite PO in *. rewrite C1 in D4. repeat match goal with |- _ /\ _ => split end; try assumption; reflexivity.
  - destruct D as (D1 & D2 & D3 & D4 & D5). exists r2, (NReady None). rewrite PO in *. rewrite C1 in D5. repeat match goal with |- _ /\ _ => split end; try assumption; reflexivity.
Qed.
Lemma rounds_enough ts n (buf : bytes) r : weight ts (n - length buf) r < rounds ts n r.
Proof. unfold weight, rounds. destruct (r_requested r); lia. Qed.

(* ---------- calls ---------- *)
Definition schedule := list (list (option turn)).
Definition fine (l : list block_info) (ds : list bytes) (ps : schedule) : Prop := Forall (all_healthy l ds) ps.
Definition prompt (ps : schedule) : Prop := Forall (fun ts => hd None ts <> None) ps.
(* how many more polls a call can find nothing *)
Definition potential (ds : list bytes) (left : nat) (r : reader) : nat :=
  left + (if c_offset (r_c r) =? 0 then 0 else 1) + (if r_requested r || (c_current (r_c r) =? length ds) then 0 else 1).
Lemma pending_inside r ds : rok r ds -> r_requested r = true -> c_offset (r_c r) = 0 -> pos r ds < length (concat ds).
Proof.
  intros [K C] Rq O. unfold channel in C. rewrite Rq in C. destruct C as (_ & L & _). pose proof (here_le _ _ K) as HL. fold (pos r ds) in HL.
  destruct (Nat.eq_dec (pos r ds) (length (concat ds))) as [E|E]; [|lia]. exfalso. destruct (here_end _ _ K L E) as (_ & d & N & X).
  pose proof (laid_nonempty _ _ _ (ok_laid _ _ K)) as F. rewrite Forall_forall in F. specialize (F d (nth_error_In _ _ N)). lia.
Qed.

Lemma exact_spec ds n : forall ps buf r, length buf <= n -> rok r ds -> fine (c_blocks (r_c r)) ds ps ->
  exists r' a out, exact_call ps n buf r = (r', a) /\ rok r' ds /\ c_blocks (r_c r') = c_blocks (r_c r) /\
    out = firstn (length out) (skipn (pos r ds) (concat ds)) /\ pos r' ds = pos r ds + length out /\
    match a with
    | AOk b => b = buf ++ out /\ length b = n /\ (ps = [] \/ length buf < n -> buf <> b -> r_requested r' = false)
    | AEnd b => b = buf ++ out /\ length b < n /\ pos r' ds = length (concat ds) /\ r_requested r' = false
    | AWaiting => length (buf ++ out) < n
    | _ => False
    end /\ (prompt ps -> potential ds (n - length buf) r <= length ps -> a <> AWaiting).
Proof.
  induction ps as [|ts ps IH]; intros buf r Hn R Hf; cbn [exact_call]; destruct (n - length buf =? 0) eqn:Z.
  1, 3: exists r, (AOk buf), []; rewrite app_nil_r; cbn; repeat match goal with |- _ /\ _ => split end; try assumption; try reflexivity; try lia; intros; congruence.
  - exists r, AWaiting, []. rewrite app_nil_r. cbn. repeat match goal with |- _ /\ _ => split end; try assumption; try reflexivity; try lia. intros _ L. unfold potential in L. lia.
  - inversion Hf as [|? ? Hts Hps]; subst. unfold poll_read.
    destruct (poll_spec ds (rounds ts n r) ts n buf r ltac:(lia) R Hts (rounds_enough ts n buf r)) as (r1 & p & o1 & P & R1 & B1 & O1 & O2 & O3). rewrite P.
    assert (POT : prompt (ts :: ps) -> forall b, p = PPending b -> potential ds (n - length b) r1 < potential ds (n - length buf) r).
    { intros Pr b ->. inversion Pr as [|? ? Hd _]; subst. destruct O3 as (G1 & G2 & G3 & G4 & G5). unfold potential. rewrite G3. subst b. rewrite app_length in *.
      cbn [orb]. destruct (r_requested r) eqn:Rq; cbn [orb].
      - destruct (G5 (or_intror (conj Rq (or_introl Hd)))) as [X|(X & Y)].
        + destruct o1; [congruence|]. cbn in *. destruct G4 as [->|([=] & _)]. cbn. lia.
        + rewrite Y. cbn [Nat.eqb]. replace (c_offset (r_c r) =? 0) with false by lia. lia.
      - assert (NE : c_current (r_c r) =? length ds = false).
        { apply Nat.eqb_neq. intros En. destruct (ok_pos _ _ (rk_ok _ _ R)) as [(X & _)|(_ & X)]; [lia|].
          assert (X1 : c_offset (r_c r1) = 0) by (destruct G4 as [Y|(_ & Y)]; [exact Y|rewrite Y; exact X]).
          pose proof (pending_inside r1 ds R1 G3 X1) as PI. rewrite O2 in PI. unfold pos, here in PI. rewrite En, firstn_all in PI. lia. }
        rewrite NE. destruct G4 as [->|(-> & ->)]; cbn [Nat.eqb length]; lia. }
    destruct p as [b|b|b|]; try contradiction.
    + destruct O3 as (G1 & G2 & G3 & G4 & G5). destruct (IH b r1 ltac:(lia) R1 ltac:(rewrite B1; exact Hps)) as (r' & a & o2 & E & R' & B' & U1 & U2 & U3 & U4).
      rewrite O2 in U1, U2. exists r', a, (o1 ++ o2). split; [exact E|]. split; [exact R'|]. split; [congruence|]. split; [apply slice_app; assumption|]. split; [rewrite app_length; lia|].
      rewrite app_assoc, <- G1. split.
      * destruct a as [b'|b'| | | |]; try exact U3. destruct U3 as (V1 & V2 & V3). split; [exact V1|]. split; [exact V2|]. intros _ _. apply V3; [right; lia|]. intros ->. lia.
      * intros Pr L. specialize (POT Pr b eq_refl). inversion Pr; subst. apply U4; [assumption|]. cbn [length] in L. lia.
    + destruct O3 as (G1 & G2 & G3 & G4). destruct (length b =? length buf) eqn:LB.
      * assert (o1 = []) by (subst b; rewrite app_length in LB; destruct o1; [reflexivity|cbn in LB; lia]). subst o1. rewrite app_nil_r in G1. subst b.
        exists r1, (AEnd buf), []. rewrite app_nil_r. repeat match goal with |- _ /\ _ => split end; try assumption; try reflexivity; try lia; try discriminate.
      * destruct (IH b r1 G2 R1 ltac:(rewrite B1; exact Hps)) as (r' & a & o2 & E & R' & B' & U1 & U2 & U3 & U4).
        pose proof (here_le _ _ (rk_ok _ _ R1)) as HL. pose proof (here_le _ _ (rk_ok _ _ R')) as HL'. fold (pos r1 ds) in HL. fold (pos r' ds) in HL'.
        rewrite O2 in U1, U2. exists r', a, (o1 ++ o2). split; [exact E|]. split; [exact R'|]. split; [congruence|]. split; [apply slice_app; assumption|]. split; [rewrite app_length; lia|].
        rewrite app_assoc, <- G1. split.
        -- destruct a as [b'|b'| | | |]; try exact U3. destruct U3 as (V1 & V2 & V3). split; [exact V1|]. split; [exact V2|]. intros _ _.
           destruct (Nat.eq_dec (length b) n) as [En|En].
           ++ destruct ps; cbn [exact_call] in E; (replace (n - length b =? 0) with true in E by lia); injection E as <- _; exact G3.
           ++ apply V3; [right; lia|]. intros ->. lia.
        -- intros Pr L. destruct G4 as [G4|(G4 & G6)].
           ++ destruct ps; cbn [exact_call] in E; (replace (n - length b =? 0) with true in E by lia); injection E as _ <-; discriminate.
           ++ apply U4; [inversion Pr; assumption|]. cbn [length] in L. unfold potential in *. rewrite G3, G6, Nat.eqb_refl. cbn [orb].
              destruct (ok_pos _ _ (rk_ok _ _ R1)) as [(X & _)|(_ & X)]; [lia|]. rewrite X. cbn [Nat.eqb].
              subst b. rewrite app_length in *. assert (0 < length o1) by lia. lia.
Qed.

Lemma read_spec_async ds n : 0 < n -> forall ps r, rok r ds -> fine (c_blocks (r_c r)) ds ps ->
  exists r' a lost, read_call ps n r = (r', a) /\ rok r' ds /\ c_blocks (r_c r') = c_blocks (r_c r) /\
    match a with
    | AOk b => b = firstn (length b) (skipn (pos r ds + lost) (concat ds)) /\ pos r' ds = pos r ds + lost + length b /\
        (length b = n \/ length b < n /\ pos r' ds = length (concat ds)) /\ r_requested r' = false /\ (length ps <= 1 -> lost = 0)
    | AWaiting => pos r' ds = pos r ds + lost
    | _ => False
    end /\ lost <= (n - 1) * length ps /\ (prompt ps -> length (concat ds) - pos r ds + 2 < length ps -> a <> AWaiting).
Proof.
  intros Hn ps r R Hf.
  enough (X : exists r' a lost, read_call ps n r = (r', a) /\ rok r' ds /\ c_blocks (r_c r') = c_blocks (r_c r) /\
    match a with
    | AOk b => b = firstn (length b) (skipn (pos r ds + lost) (concat ds)) /\ pos r' ds = pos r ds + lost + length b /\
        (length b = n \/ length b < n /\ pos r' ds = length (concat ds)) /\ r_requested r' = false /\ (length ps <= 1 -> lost = 0)
    | AWaiting => pos r' ds = pos r ds + lost
    | _ => False
    end /\ lost <= (n - 1) * length ps /\ (prompt ps -> potential ds (length (concat ds) - pos r ds) r < length ps -> a <> AWaiting)).
  { destruct X as (r' & a & lost & X1 & X2 & X3 & X4 & X5 & X6). exists r', a, lost. repeat match goal with |- _ /\ _ => split end; try assumption.
    intros P L. apply X6; [exact P|]. unfold potential. destruct (c_offset (r_c r) =? 0), (r_requested r || (c_current (r_c r) =? length ds)); lia. }
  revert r R Hf. induction ps as [|ts ps IH]; intros r R Hf; cbn [read_call].
  - exists r, AWaiting, 0. cbn. repeat match goal with |- _ /\ _ => split end; try assumption; try reflexivity; try lia.
  - inversion Hf as [|? ? Hts Hps]; subst. unfold poll_read.
    destruct (poll_spec ds (rounds ts n r) ts n [] r ltac:(cbn; lia) R Hts (rounds_enough ts n [] r)) as (r1 & p & o1 & P & R1 & B1 & O1 & O2 & O3). rewrite P.
    destruct p as [b|b|b|]; try contradiction.
    + destruct O3 as (G1 & G2 & G3 & G4 & G5). cbn [app] in G1. subst b.
      destruct (IH r1 R1 ltac:(rewrite B1; exact Hps)) as (r' & a & lost & E & R' & B' & U1 & U2 & U3). rewrite O2 in U1.
      exists r', a, (length o1 + lost). split; [exact E|]. split; [exact R'|]. split; [congruence|].
      pose proof (here_le _ _ (rk_ok _ _ R1)) as HL. fold (pos r1 ds) in HL.
      split; [|split].
      * destruct a as [b|b| | | |]; try exact U1; [|lia]. destruct U1 as (V1 & V2 & V3 & V4 & V5). rewrite <- Nat.add_assoc in V1. split; [exact V1|]. split; [lia|]. split; [exact V3|]. split; [exact V4|].
        intros L. cbn [length] in L. destruct ps; [|cbn in L; lia]. cbn in E. discriminate E.
      * cbn [length]. rewrite Nat.mul_succ_r. assert (length o1 <= n - 1) by (cbn in G2; lia). apply (Nat.add_le_mono _ _ _ _ H) in U2. rewrite (Nat.add_comm (n - 1)) in U2. exact U2.
      * intros Pr L. inversion Pr as [|? ? Hd Pr']; subst. apply U3; [assumption|]. cbn [length] in L.
        assert (POT : potential ds (length (concat ds) - pos r1 ds) r1 < potential ds (length (concat ds) - pos r ds) r); [|lia].
        unfold potential. rewrite G3. cbn [orb]. destruct (r_requested r) eqn:Rq; cbn [orb].
        -- destruct (G5 (or_intror (conj Rq (or_introl Hd)))) as [X|(X & Y)].
           ++ destruct o1; [congruence|]. cbn [length] in *. destruct G4 as [->|([=] & _)]. cbn [Nat.eqb]. lia.
           ++ rewrite Y. cbn [Nat.eqb]. replace (c_offset (r_c r) =? 0) with false by lia. lia.
        -- assert (NE : c_current (r_c r) =? length ds = false).
           { apply Nat.eqb_neq. intros En. destruct (ok_pos _ _ (rk_ok _ _ R)) as [(X & _)|(_ & X)]; [lia|].
             assert (X1 : c_offset (r_c r1) = 0) by (destruct G4 as [Y|(_ & Y)]; [exact Y|rewrite Y; exact X]).
             pose proof (pending_inside r1 ds R1 G3 X1) as PI. rewrite O2 in PI. unfold pos, here in PI. rewrite En, firstn_all in PI. lia. }
           rewrite NE. destruct G4 as [->|(-> & ->)]; cbn [Nat.eqb length]; lia.
    + destruct O3 as (G1 & G2 & G3 & G4). cbn [app] in G1. subst b. exists r1, (AOk o1), 0. rewrite Nat.add_0_r. split; [reflexivity|]. split; [exact R1|]. split; [exact B1|].
      split; [|split; [apply Nat.le_0_l|discriminate]]. split; [exact O1|]. split; [exact O2|]. split; [|split; [exact G3|reflexivity]]. destruct (Nat.eq_dec (length o1) n); [left; assumption|right]. destruct G4 as [G4|G4]; [contradiction|]. split; [lia|apply G4].
Qed.
Lemma next_call_spec ds : forall ps r, rok r ds -> fine (c_blocks (r_c r)) ds ps ->
  exists r' a, next_call ps r = (r', a) /\ rok r' ds /\ c_blocks (r_c r') = c_blocks (r_c r) /\
    match a with
    | AOk l => l = firstn (length l) (skipn (pos r ds) (concat ds)) /\ pos r' ds = pos r ds + length l /\ r_requested r' = false
    | AEnd l => l = [] /\ pos r ds = length (concat ds) /\ pos r' ds = pos r ds /\ r_requested r' = false
    | AWaiting => pos r' ds = pos r ds
    | _ => False
    end /\ (prompt ps -> (if r_requested r then 1 else 2) <= length ps -> a <> AWaiting).
Proof.
  induction ps as [|ts ps IH]; intros r R Hf; cbn [next_call].
  - exists r, AWaiting. repeat match goal with |- _ /\ _ => split end; try assumption; try reflexivity. intros _ L. cbn in L. destruct (r_requested r); lia.
  - inversion Hf as [|? ? Hts Hps]; subst. unfold poll_next.
    destruct (next_spec ds (rounds ts 0 r) ts r R Hts (rounds_enough ts 0 [] r)) as (r1 & p & P & R1 & B1 & O3). rewrite P.
    destruct p as [|[l|]| |]; try contradiction.
    + destruct O3 as (G1 & G2 & G3 & _). destruct (IH r1 R1 ltac:(rewrite B1; exact Hps)) as (r' & a & E & R' & B' & U1 & U2). rewrite G1 in U1.
      exists r', a. split; [exact E|]. split; [exact R'|]. split; [congruence|]. split; [exact U1|]. intros Pr L. inversion Pr as [|? ? Hd Pr']; subst.
      destruct (r_requested r) eqn:Rq; [exfalso; apply G3; right; split; [exact Rq|left; exact Hd]|]. apply U2; [assumption|]. rewrite G2. cbn in L. lia.
    + destruct O3 as (G1 & G2 & G3 & _). exists r1, (AOk l). repeat match goal with |- _ /\ _ => split end; try assumption; try reflexivity. discriminate.
    + destruct O3 as (G1 & G2 & G3 & G4 & _). exists r1, (AEnd []). repeat match goal with |- _ /\ _ => split end; try assumption; try reflexivity. discriminate.
Qed.
Lemma poll_complete_here c ds : ok c ds -> poll_complete c = here c ds.
Proof.
  intros K. unfold poll_complete. pose proof (laid_length _ _ _ (ok_laid _ _ K)) as LL. destruct (c_blocks c) as [|b0 l] eqn:EB.
  - assert (ds = []) by (destruct ds; [reflexivity|discriminate]). subst ds. unfold here. rewrite firstn_nil. destruct (ok_pos _ _ K) as [(X & _)|(_ & ->)]; [cbn in X; lia|reflexivity].
  - rewrite <- EB in *. destruct (nth_error (c_blocks c) (c_current c)) as [b|] eqn:N.
    + destruct (laid_nth _ _ _ _ _ (ok_laid _ _ K) N) as (d & _ & O & _). unfold here. cbn in O. lia.
    + apply nth_error_None in N. rewrite (laid_len (c_blocks c) ds c (ok_laid _ _ K) eq_refl). destruct (ok_pos _ _ K) as [(X & _)|(E & O)]; [lia|]. unfold here. rewrite E, O, firstn_all. lia.
Qed.

(* ---------- without any assumption about the database or the calls ---------- *)
Definition tidy (r : reader) : Prop :=
  if r_requested r then c_loaded (r_c r) = [] /\ length (r_requests r) + length (r_responses r) <= 1 /\ c_current (r_c r) < length (c_blocks (r_c r))
  else r_requests r = [] /\ r_responses r = [].
Definition dead (r : reader) : Prop :=
  r_requested r = true /\ c_loaded (r_c r) = [] /\ r_requests r = [] /\ r_responses r = [] /\ c_current (r_c r) < length (c_blocks (r_c r)).
Lemma turn_tidy r t : tidy r -> tidy (maybe_turn t r) /\ r_requested (maybe_turn t r) = r_requested r /\ r_c (maybe_turn t r) = r_c r.
Proof.
  destruct t as [t|]; [|cbn; tauto]. cbn. unfold task_turn, tidy. destruct (r_requests r) as [|i q] eqn:E; [rewrite E; tauto|]. cbn. destruct (r_requested r); [|intros [X _]; discriminate].
  intros (A & B & C). rewrite app_length. cbn. repeat split; [exact A|lia|exact C].
Qed.
Lemma turn_dead r t : dead r -> maybe_turn t r = r.
Proof. intros (_ & _ & E & _). destruct t as [t|]; [|reflexivity]. cbn. unfold task_turn. rewrite E. reflexivity. Qed.
Lemma more_lt c : more c = true -> c_current c < length (c_blocks c).
Proof. unfold more. destruct (c_current c <? length (c_blocks c)) eqn:E; [lia|]. cbn. destruct (c_current c + 1 =? length (c_blocks c)) eqn:E2; [lia|]. discriminate. Qed.
Lemma nb_blocks n c c' x : non_blocking_read n c = Some (c', x) -> c_blocks c' = c_blocks c /\ (x = NeedBlocks -> c_current c' < length (c_blocks c')) /\ (c_loaded c = [] -> c' = c).
Proof.
  unfold non_blocking_read. destruct (match c_loaded c with [] => true | (i, _) :: _ => negb (i =? c_current c) end) eqn:Nd.
  - destruct (more c) eqn:M; intros [= <- <-]; repeat split; try discriminate. intros _. apply more_lt, M.
  - assert (NL : c_loaded c <> []) by (destruct (c_loaded c); discriminate).
    destruct (consume n (c_loaded c) (c_current c) (c_offset c)) as [[[[l cur] off] [o|]]|]; [intros [= <- <-]; repeat split; [discriminate|congruence]| |discriminate].
    destruct (more (Contents (c_blocks c) l cur off (c_buffer c))) eqn:M; intros [= <- <-]; repeat split; try discriminate; try congruence. intros _. apply (more_lt _ M).
Qed.
Lemma rb_blocks c c' x : read_block c = Some (c', x) -> c_blocks c' = c_blocks c /\ (x = NeedBlocks -> c_current c' < length (c_blocks c')) /\ (c_loaded c = [] -> c' = c).
Proof.
  unfold read_block. destruct (c_loaded c) as [|[i b] q] eqn:E.
  - destruct (more c) eqn:M; intros [= <- <-]; repeat split; try discriminate. intros _. apply more_lt, M.
  - destruct (i =? c_current c).
    + destruct (length b <? c_offset c); [discriminate|]. intros [= <- <-]. repeat split; discriminate.
    + destruct (more (Contents (c_blocks c) q (c_current c) (c_offset c) (c_buffer c))) eqn:M; intros [= <- <-]; repeat split; try discriminate. intros _. apply (more_lt _ M).
Qed.
Lemma set_tidy r c' : tidy r -> (c_loaded (r_c r) = [] -> c_loaded c' = [] /\ (c_current (r_c r) < length (c_blocks (r_c r)) -> c_current c' < length (c_blocks c'))) -> tidy (set_c c' r).
Proof. unfold tidy. cbn. destruct (r_requested r); [|tauto]. intros (A & B & C) H. split; [apply H, A|split; [exact B|apply H; [exact A|exact C]]]. Qed.
Lemma fetch_tidy r r' f : tidy r -> c_current (r_c r) < length (c_blocks (r_c r)) -> fetch_blocks r = (r', f) -> tidy r' /\ (f = FError -> dead r').
Proof.
  intros T L. unfold fetch_blocks, tidy in *. destruct (r_requested r) eqn:Rq.
  - destruct T as (T1 & T2 & _). destruct (r_responses r) as [|[bs|] q] eqn:Q; intros [= <- <-]; cbn.
    + rewrite Rq, Q. cbn. split; [split; [exact T1|split; [cbn in T2; lia|exact L]]|discriminate].
    + split; [|discriminate]. cbn in T2. destruct (r_requests r); [|cbn in T2; lia]. destruct q; [|cbn in T2; lia]. split; reflexivity.
    + cbn in T2. destruct (r_requests r) eqn:Q2; [|cbn in T2; lia]. destruct q; [|cbn in T2; lia]. split; [split; [exact T1|split; [cbn; lia|exact L]]|]. intros _. repeat split; cbn; assumption.
  - destruct T as (T1 & T2). destruct (map bi_id (next_blocks (r_c r))); intros [= <- <-]; cbn; [rewrite Rq; split; [split; assumption|discriminate]|]. rewrite T1, T2. cbn. split; [split; [reflexivity|split; [lia|exact L]]|discriminate].
Qed.
Lemma poll_tidy fuel : forall ts n buf r r' p, tidy r -> poll_loop fuel ts n buf r = Done (r', p) -> tidy r' /\ (forall b, p = PError b -> dead r').
Proof.
  induction fuel as [|k IH]; intros ts n buf r r' p T; cbn [poll_loop]; [intros [= <- <-]; split; [exact T|discriminate]|].
  destruct (next_turn ts) as [t ts']. destruct (turn_tidy r t T) as (T1 & Q1 & _). set (r1 := maybe_turn t r) in *.
  destruct (non_blocking_read (n - length buf) (r_c r1)) as [[c' x]|] eqn:E; [|discriminate]. destruct (nb_blocks _ _ _ _ E) as (B & M & Lo).
  assert (T2 : tidy (set_c c' r1)) by (apply set_tidy; [exact T1|intros X; rewrite (Lo X); split; [exact X|tauto]]). destruct x as [|out|].
  - destruct (fetch_blocks (set_c c' r1)) as [r2 f] eqn:F. destruct (fetch_tidy _ _ _ T2 (M eq_refl) F) as (T3 & D3).
    destruct f as [|[|]|]; [intros [= <- <-]; split; [exact T3|discriminate]|apply IH, T3|intros [= <- <-]; split; [exact T3|discriminate]|intros [= <- <-]; split; [exact T3|intros _ _; apply D3; reflexivity]].
  - destruct (n - length (buf ++ out) =? 0); [intros [= <- <-]; split; [exact T2|discriminate]|apply IH, T2].
  - intros [= <- <-]. split; [exact T2|discriminate].
Qed.
Lemma pnext_tidy fuel : forall ts r r' p, tidy r -> next_loop fuel ts r = Done (r', p) -> tidy r' /\ (p = NError -> dead r').
Proof.
  induction fuel as [|k IH]; intros ts r r' p T; cbn [next_loop]; [intros [= <- <-]; split; [exact T|discriminate]|].
  destruct (next_turn ts) as [t ts']. destruct (turn_tidy r t T) as (T1 & Q1 & _). set (r1 := maybe_turn t r) in *.
  destruct (read_block (r_c r1)) as [[c' x]|] eqn:E; [|discriminate]. destruct (rb_blocks _ _ _ E) as (B & M & Lo).
  assert (T2 : tidy (set_c c' r1)) by (apply set_tidy; [exact T1|intros X; rewrite (Lo X); split; [exact X|tauto]]). destruct x as [|out|].
  - destruct (fetch_blocks (set_c c' r1)) as [r2 f] eqn:F. destruct (fetch_tidy _ _ _ T2 (M eq_refl) F) as (T3 & D3).
    destruct f as [|[|]|]; [intros [= <- <-]; split; [exact T3|discriminate]|apply IH, T3|intros [= <- <-]; split; [exact T3|discriminate]|intros [= <- <-]; split; [exact T3|intros _; apply D3; reflexivity]].
  - intros [= <- <-]. split; [exact T2|discriminate].
  - intros [= <- <-]. split; [exact T2|discriminate].
Qed.
Lemma read_tidy n : forall ps r r' a, tidy r -> read_call ps n r = (r', a) -> tidy r' /\ (a = AFailed -> dead r').
Proof.
  induction ps as [|ts ps IH]; intros r r' a T; cbn [read_call]; [intros [= <- <-]; split; [exact T|discriminate]|]. unfold poll_read.
  destruct (poll_loop (rounds ts n r) ts n [] r) as [[r1 p]| |] eqn:E; [|intros [= <- <-]; split; [exact T|discriminate]..].
  destruct (poll_tidy _ _ _ _ _ _ _ T E) as (T1 & D1). destruct p as [b|b|b|]; [apply IH, T1|intros [= <- <-]; split; [exact T1|discriminate]|intros [= <- <-]; split; [exact T1|intros _; eapply D1; reflexivity]|intros [= <- <-]; split; [exact T1|discriminate]].
Qed.
Lemma exact_tidy n : forall ps buf r r' a, tidy r -> exact_call ps n buf r = (r', a) -> tidy r' /\ (a = AFailed -> dead r').
Proof.
  induction ps as [|ts ps IH]; intros buf r r' a T; cbn [exact_call]; (destruct (n - length buf =? 0); [intros [= <- <-]; split; [exact T|discriminate]|]); [intros [= <- <-]; split; [exact T|discriminate]|].
  unfold poll_read. destruct (poll_loop (rounds ts n r) ts n buf r) as [[r1 p]| |] eqn:E; [|intros [= <- <-]; split; [exact T|discriminate]..].
  destruct (poll_tidy _ _ _ _ _ _ _ T E) as (T1 & D1). destruct p as [b|b|b|]; [apply IH, T1| |intros [= <- <-]; split; [exact T1|intros _; eapply D1; reflexivity]|intros [= <- <-]; split; [exact T1|discriminate]].
  destruct (length b =? length buf); [intros [= <- <-]; split; [exact T1|discriminate]|apply IH, T1].
Qed.
Lemma ncall_tidy : forall ps r r' a, tidy r -> next_call ps r = (r', a) -> tidy r' /\ (a = AFailed -> dead r').
Proof.
  induction ps as [|ts ps IH]; intros r r' a T; cbn [next_call]; [intros [= <- <-]; split; [exact T|discriminate]|]. unfold poll_next.
  destruct (next_loop (rounds ts 0 r) ts r) as [[r1 p]| |] eqn:E; [|intros [= <- <-]; split; [exact T|discriminate]..].
  destruct (pnext_tidy _ _ _ _ _ T E) as (T1 & D1). destruct p as [|[b|]| |]; [apply IH, T1|intros [= <- <-]; split; [exact T1|discriminate]..|intros [= <- <-]; split; [exact T1|intros _; apply D1; reflexivity]|intros [= <- <-]; split; [exact T1|discriminate]].
Qed.
(* a dead reader waits for ever *)
Lemma dead_more r : dead r -> more (r_c r) = true.
Proof. intros (_ & _ & _ & _ & L). unfold more. replace (c_current (r_c r) <? length (c_blocks (r_c r))) with true by lia. reflexivity. Qed.
Lemma set_same r : set_c (r_c r) r = r.
Proof. destruct r; reflexivity. Qed.
Lemma dead_fetch r : dead r -> fetch_blocks r = (r, FPending).
Proof. intros (Q & _ & _ & P & _). unfold fetch_blocks. rewrite Q, P. reflexivity. Qed.
Lemma dead_poll fuel ts n buf r : dead r -> poll_loop (S fuel) ts n buf r = Done (r, PPending buf).
Proof.
  intros D. cbn [poll_loop]. destruct (next_turn ts) as [t ts']. rewrite (turn_dead r t D). unfold non_blocking_read. destruct D as (Q & Lo & X). rewrite Lo.
  assert (D : dead r) by (split; [exact Q|split; [exact Lo|exact X]]). rewrite (dead_more r D), set_same, (dead_fetch r D). reflexivity.
Qed.
Lemma dead_pnext fuel ts r : dead r -> next_loop (S fuel) ts r = Done (r, NPending).
Proof.
  intros D. cbn [next_loop]. destruct (next_turn ts) as [t ts']. rewrite (turn_dead r t D). unfold read_block. destruct D as (Q & Lo & X). rewrite Lo.
  assert (D : dead r) by (split; [exact Q|split; [exact Lo|exact X]]). rewrite (dead_more r D), set_same, (dead_fetch r D). reflexivity.
Qed.
Lemma rounds_S ts n r : exists k, rounds ts n r = S k.
Proof. unfold rounds. exists (n + 3 * length ts + 2 * length (r_responses r) + 1). lia. Qed.
Lemma dead_read n ps r : dead r -> read_call ps n r = (r, AWaiting).
Proof. intros D. induction ps as [|ts ps IH]; cbn [read_call]; [reflexivity|]. unfold poll_read. destruct (rounds_S ts n r) as (k & ->). rewrite (dead_poll k ts n [] r D). exact IH. Qed.
Lemma dead_exact n ps r : 0 < n -> dead r -> exact_call ps n [] r = (r, AWaiting).
Proof.
  intros Hn D. induction ps as [|ts ps IH]; cbn [exact_call]; (replace (n - length (@nil N) =? 0) with false by (cbn; lia)); [reflexivity|].
  unfold poll_read. destruct (rounds_S ts n r) as (k & ->). rewrite (dead_poll k ts n [] r D). exact IH.
Qed.
Lemma dead_next ps r : dead r -> next_call ps r = (r, AWaiting).
Proof. intros D. induction ps as [|ts ps IH]; cbn [next_call]; [reflexivity|]. unfold poll_next. destruct (rounds_S ts 0 r) as (k & ->). rewrite (dead_pnext k ts r D). exact IH. Qed.
Lemma find_block_lt l : forall i p j b, find_block i p l = Some (j, b) -> j < i + length l.
Proof. induction l as [|x l IH]; intros i p j b; cbn [find_block]; [discriminate|]. destruct (p <? _); [intros [= <- _]; cbn; lia|]. intros H. apply IH in H. cbn. lia. Qed.
Lemma seek_to_keeps p c c' q : seek_to p c = Done (c', q) -> c_loaded c' = c_loaded c /\ c_blocks c' = c_blocks c /\ (0 < length (c_blocks c) -> c_current c' < length (c_blocks c)).
Proof.
  unfold seek_to. destruct (find_block 0 p (c_blocks c)) as [[i b]|] eqn:F.
  - destruct (bi_offset b <=? p); [|discriminate]. intros [= <- _]. apply find_block_lt in F. cbn in *. repeat split. intros _. exact F.
  - destruct (last (map Some (c_blocks c)) None); intros [= <- _]; cbn; repeat split; intros; lia.
Qed.
Lemma seek_keeps s c c' q : seek s c = Done (c', q) -> c_loaded c' = c_loaded c /\ c_blocks c' = c_blocks c /\ (0 < length (c_blocks c) -> c_current c' < length (c_blocks c)).
Proof.
  unfold seek. destruct s as [m|z|z]; [..|destruct (c_blocks c) as [|b l] eqn:E; [intros [= <- _]; rewrite E; repeat split; cbn; intros; lia|rewrite <- E]].
  all: destruct (seek_target c _); try discriminate; apply seek_to_keeps.
Qed.
Lemma seek_tidy s r r' q : seek_async s r = Done (r', q) -> (tidy r -> tidy r') /\ (dead r -> dead r').
Proof.
  unfold seek_async. destruct (seek s (r_c r)) as [[c' q']| |] eqn:E; try discriminate. intros [= <- _]. destruct (seek_keeps _ _ _ _ E) as (A & B & C). split.
  - intros T. apply set_tidy; [exact T|]. rewrite A, B. intros X. split; [exact X|]. intros Y. apply C. lia.
  - intros (D1 & D2 & D3 & D4 & D5). unfold dead. cbn. rewrite A, B. repeat split; try assumption. apply C. lia.
Qed.

(* a request the database fails: the very poll that learns of it reports it *)
Lemma failed_turn r d : tidy r -> r_requests r <> [] -> let r1 := task_turn (Turn d false) r in
  r_requested r1 = true /\ c_loaded (r_c r1) = [] /\ more (r_c r1) = true /\ r_responses r1 = [None] /\ r_c r1 = r_c r.
Proof.
  intros T N. unfold task_turn. unfold tidy in T. destruct (r_requests r) as [|ids q] eqn:Q; [congruence|]. destruct (r_requested r) eqn:Rq; [|destruct T as [T _]; discriminate].
  destruct T as (A & B & C). cbn in *. assert (r_responses r = []) by (destruct (r_responses r); [reflexivity|cbn in B; lia]). rewrite H. repeat split; try assumption.
  unfold more. replace (c_current (r_c r) <? length (c_blocks (r_c r))) with true by lia. reflexivity.
Qed.
Lemma failed_poll k d ts n buf r : tidy r -> r_requests r <> [] -> exists r', poll_loop (S k) (Some (Turn d false) :: ts) n buf r = Done (r', PError buf).
Proof.
  intros T N. destruct (failed_turn r d T N) as (A & B & C & D & _). cbn [poll_loop next_turn maybe_turn]. set (r1 := task_turn (Turn d false) r) in *.
  unfold non_blocking_read. rewrite B, C, set_same. unfold fetch_blocks. rewrite A, D. eexists. reflexivity.
Qed.
Lemma failed_pnext k d ts r : tidy r -> r_requests r <> [] -> exists r', next_loop (S k) (Some (Turn d false) :: ts) r = Done (r', NError).
Proof.
  intros T N. destruct (failed_turn r d T N) as (A & B & C & D & _). cbn [next_loop next_turn maybe_turn]. set (r1 := task_turn (Turn d false) r) in *.
  unfold read_block. rewrite B, C, set_same. unfold fetch_blocks. rewrite A, D. eexists. reflexivity.
Qed.
