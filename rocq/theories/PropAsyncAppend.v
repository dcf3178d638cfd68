(* C87: the asynchronous buffered appender. *)
From Verif Require Import Base Key KeyProofs Files FilesProofs FilesRead PropFiles PropAppend AsyncAppend.
From Coq Require Import Permutation Sorted ZifyBool Lia Arith.
Local Open Scope nat_scope.

(* ---------- specification ---------- *)
(* the bytes the write calls reported as accepted, in order *)
Fixpoint accepted (h : list (event * polled)) : bytes :=
  match h with
  | [] => []
  | (Write _ data, ReadyOk k) :: r => firstn k data ++ accepted r
  | _ :: r => accepted r
  end.
(* how many polls answered an error *)
Fixpoint errors (h : list (event * polled)) : nat :=
  match h with
  | [] => 0
  | (_, ReadyErr) :: r => Datatypes.S (errors r)
  | _ :: r => errors r
  end.
(* the calls on the appender and the progress of its own flush *)
Definition on_appender (e : event) : Prop :=
  match e with Write _ _ | Flush _ | Resize _ _ | Arrive _ => True | _ => False end.
Definition calls (h : list (event * polled)) : Prop := Forall (fun x => on_appender (fst x)) h.
(* no poll finds that the transaction it has just submitted (or is waiting for)
   was answered during that same poll: answers arrive between polls *)
Definition unhurried (e : event) : Prop :=
  match e with Write q _ | Flush q | Resize q _ => q = None | _ => True end.
(* the bytes of a flush that is under way *)
Definition in_flight (w : wr) : bytes := match w_fut w with Some (Running d) => d | _ => [] end.
Definition start (db : fdb) : st := St db (Some append_buffered) [].

(* ---------- proofs ---------- *)
Definition lost (ps : list (bytes * bool)) : nat := length (filter (fun p => negb (snd p)) ps).
Definition landed (ps : list (bytes * bool)) : bytes := concat (map fst (filter snd ps)).
Definition all_of (ps : list (bytes * bool)) : bytes := concat (map fst ps).
Definition unread (w : wr) : nat := match w_fut w with Some (Answered false) => 1 | _ => 0 end.

Record inv (bs : nat) (f : N) (c0 acc : bytes) (errs : nat) (w : wr) (db : fdb) (ps : list (bytes * bool)) : Prop := {
  i_wf : wf bs db;
  i_content : content db f = c0 ++ landed ps;
  i_acc : acc = all_of ps ++ in_flight w ++ w_buf w;
  i_lost : lost ps <= errs + unread w;
  i_busy : match w_fut w with Some (Running d) => w_buf w = [] /\ d <> [] | Some (Answered _) => w_buf w = [] | _ => True end;
  i_cap : length (w_buf w) <= w_cap w;
  i_zero : w_cap w = 0 -> w_fut w = None \/ w_fut w = Some Finished }.

Lemma landed_snoc ps d b : landed (ps ++ [(d, b)]) = landed ps ++ (if b then d else []).
Proof. unfold landed. rewrite filter_app, map_app, concat_app. destruct b; cbn; rewrite ?app_nil_r; reflexivity. Qed.
Lemma all_snoc ps d b : all_of (ps ++ [(d, b)]) = all_of ps ++ d.
Proof. unfold all_of. rewrite map_app, concat_app. cbn. rewrite app_nil_r. reflexivity. Qed.
Lemma lost_snoc ps d b : lost (ps ++ [(d, b)]) = lost ps + (if b then 0 else 1).
Proof. unfold lost. rewrite filter_app, app_length. destruct b; reflexivity. Qed.
Lemma lost_0 ps : lost ps = 0 -> landed ps = all_of ps.
Proof.
  unfold lost, landed, all_of. induction ps as [|[d b] r IH]; [reflexivity|]. destruct b; cbn; [|discriminate]. intros H. rewrite IH by exact H. reflexivity.
Qed.

Lemma append_content bs f t d db db' : 0 < bs -> wf bs db -> append bs d f t db = Done db' -> wf bs db' /\ content db' f = content db f ++ d.
Proof.
  intros Hb W A. destruct (append_spec bs _ _ _ _ _ Hb W A) as (W' & _ & E). split; [exact W'|]. unfold content. rewrite E, N.eqb_refl. reflexivity.
Qed.
(* an answer of Ok means the bytes are there; an error means all of them or none *)
Lemma perform_spec bs f h d db db' ok : 0 < bs -> wf bs db -> perform bs f h d db = (db', ok) ->
  exists b, wf bs db' /\ content db' f = content db f ++ (if b : bool then d else []) /\ (ok = true -> b = true).
Proof.
  intros Hb W. unfold perform. destruct h as [t|t|].
  - destruct (append bs d f t db) as [x|e|] eqn:A; intros [= <- <-].
    + destruct (append_content _ _ _ _ _ _ Hb W A). exists true. tauto.
    + exists false. rewrite app_nil_r. split; [exact W|]. split; [reflexivity|discriminate].
    + exists false. rewrite app_nil_r. split; [exact W|]. split; [reflexivity|discriminate].
  - destruct (append bs d f t db) as [x|e|] eqn:A; intros [= <- <-].
    + destruct (append_content _ _ _ _ _ _ Hb W A). exists true. tauto.
    + exists false. rewrite app_nil_r. split; [exact W|]. split; [reflexivity|discriminate].
    + exists false. rewrite app_nil_r. split; [exact W|]. split; [reflexivity|discriminate].
  - intros [= <- <-]. exists false. rewrite app_nil_r. split; [exact W|]. split; [reflexivity|discriminate].
Qed.

Lemma flushed_idle bs f q w db w' db' k : poll_flush bs f q w db = Done (w', db', ReadyOk k) -> w_fut w' = None \/ w_fut w' = Some Finished.
Proof.
  unfold poll_flush. intros E. destruct (w_fut w) as [u|] eqn:Fu.
  - destruct (poll_future bs f q u db) as [[[u' d'] [|k'|]]| |]; try discriminate. injection E as <- <- <-. left. reflexivity.
  - destruct (w_buf w) eqn:Bu; [injection E as <- <- <-; left; exact Fu|]. cbn [poll_future] in E. destruct q as [h|]; [|discriminate].
    destruct (perform bs f h _ db) as [d' ok]. destruct ok; [|discriminate]. injection E as <- <- <-. right. reflexivity.
Qed.
Definition errs_of (p : polled) : nat := match p with ReadyErr => 1 | _ => 0 end.

Lemma flush_inv bs f q c0 acc errs w db ps w' db' p : 0 < bs -> inv bs f c0 acc errs w db ps -> poll_flush bs f q w db = Done (w', db', p) ->
  exists ps', inv bs f c0 acc (errs + errs_of p) w' db' ps' /\ w_cap w' = w_cap w /\ (forall k, p = ReadyOk k -> w_buf w' = [] /\ in_flight w' = [] /\ unread w' = 0).
Proof.
  intros Hb [W C A L B K Z]. unfold poll_flush. destruct (w_fut w) as [u|] eqn:Fu.
  - destruct u as [d|ok|]; cbn [poll_future].
    + destruct B as (B & Nd). unfold in_flight in A. rewrite Fu, B in A. unfold unread in L. rewrite Fu in L. destruct q as [h|].
      * destruct (perform bs f h d db) as [db2 ok] eqn:P. destruct (perform_spec _ _ _ _ _ _ _ Hb W P) as (b & W2 & C2 & O).
        assert (G : exists ps', inv bs f c0 acc (errs + errs_of (ready ok)) (Wr (w_buf w) (w_cap w) None) db2 ps').
        { exists (ps ++ [(d, b)]). constructor; cbn.
          - exact W2.
          - rewrite C2, C, landed_snoc, app_assoc. reflexivity.
          - rewrite all_snoc, B, A, !app_nil_r. reflexivity.
          - rewrite lost_snoc. unfold unread. cbn. destruct ok; cbn; [rewrite O by reflexivity|destruct b]; lia.
          - exact I.
          - exact K.
          - intros _. left. reflexivity. }
        destruct G as (ps' & G). destruct ok; cbn [ready]; intros [= <- <- <-]; exists ps'; (split; [exact G|]); (split; [reflexivity|]); intros k E; [|discriminate].
        cbn. rewrite B. repeat split.
      * intros [= <- <- <-]. exists ps. cbn [errs_of]. rewrite Nat.add_0_r. split; [|split; [reflexivity|discriminate]]. constructor; cbn; try assumption.
        -- rewrite B. exact A.
        -- split; assumption.
    + unfold in_flight in A. rewrite Fu in A. unfold unread in L. rewrite Fu in L.
      assert (G : inv bs f c0 acc (errs + errs_of (ready ok)) (Wr (w_buf w) (w_cap w) None) db ps).
      { constructor; cbn; try assumption; try exact I. { unfold unread. cbn. destruct ok; cbn; lia. } intros _. left. reflexivity. }
      destruct ok; cbn [ready] in *; intros [= <- <- <-]; exists ps; (split; [exact G|]); (split; [reflexivity|]); intros k E; [|discriminate]. cbn. rewrite B. repeat split.
    + discriminate.
  - unfold in_flight in A. rewrite Fu in A. unfold unread in L. rewrite Fu in L. destruct (w_buf w) as [|x r] eqn:Bu.
    + intros [= <- <- <-]. exists ps. cbn [errs_of]. rewrite Nat.add_0_r. split.
      * constructor; try assumption; unfold in_flight, unread; rewrite ?Fu, ?Bu; try assumption; try exact I.
      * split; [reflexivity|]. intros k _. unfold in_flight, unread. rewrite Fu. rewrite Bu. repeat split.
    + assert (Nd : x :: r <> []) by discriminate. revert A K Nd. generalize (x :: r) as d. clear x r Bu. intros d A K Nd. cbn [poll_future]. destruct q as [h|].
      * destruct (perform bs f h d db) as [db2 ok] eqn:P. destruct (perform_spec _ _ _ _ _ _ _ Hb W P) as (b & W2 & C2 & O).
        intros [= <- <- <-]. exists (ps ++ [(d, b)]). split; [|split; [reflexivity|]].
        -- constructor; cbn.
           ++ exact W2.
           ++ rewrite C2, C, landed_snoc, app_assoc. reflexivity.
           ++ rewrite all_snoc, A, !app_nil_r. reflexivity.
           ++ rewrite lost_snoc. unfold unread. cbn. destruct ok; cbn; [rewrite O by reflexivity|destruct b]; lia.
           ++ exact I.
           ++ lia.
           ++ intros _. right. reflexivity.
        -- intros k _. repeat split.
      * intros [= <- <- <-]. exists ps. cbn [errs_of]. rewrite Nat.add_0_r. split; [|split; [reflexivity|discriminate]].
        constructor; cbn; try assumption.
        -- unfold in_flight. cbn. rewrite app_nil_r. rewrite A. reflexivity.
        -- split; [reflexivity|assumption].
        -- lia.
        -- intros Zc. exfalso. destruct d; [congruence|cbn in K; lia].
Qed.

Lemma write_inv bs f q data c0 acc errs w db ps w' db' p : 0 < bs -> inv bs f c0 acc errs w db ps -> poll_write bs f q data w db = Done (w', db', p) ->
  exists ps', inv bs f c0 (acc ++ match p with ReadyOk k => firstn k data | _ => [] end) (errs + errs_of p) w' db' ps'.
Proof.
  intros Hb I0. unfold poll_write. set (w1 := if (w_cap w =? 0)%nat then _ else w).
  assert (I1 : inv bs f c0 acc errs w1 db ps).
  { unfold w1. destruct (Nat.eqb_spec (w_cap w) 0) as [Z0|_]; [|exact I0]. destruct I0 as [W C A L B K Z]. constructor; cbn; try assumption; [lia|]. intros _. apply Z. exact Z0. }
  clearbody w1. clear I0 w.
  set (fl := match w_fut w1 with Some _ => _ | None => _ end).
  assert (FL : forall w2 db2 p2, fl = Done (w2, db2, p2) -> exists ps', inv bs f c0 acc (errs + errs_of p2) w2 db2 ps' /\
      (forall k, p2 = ReadyOk k -> in_flight w2 = [] /\ match w_fut w2 with Some (Answered _) => False | _ => True end)).
  { intros w2 db2 p2. unfold fl.
    assert (FF : poll_flush bs f q w1 db = Done (w2, db2, p2) -> exists ps', inv bs f c0 acc (errs + errs_of p2) w2 db2 ps' /\
      (forall k, p2 = ReadyOk k -> in_flight w2 = [] /\ match w_fut w2 with Some (Answered _) => False | _ => True end)).
    { intros E. destruct (flush_inv _ _ _ _ _ _ _ _ _ _ _ _ Hb I1 E) as (ps' & I2 & _ & R). exists ps'. split; [exact I2|]. intros k Ek. destruct (R k Ek) as (_ & Fi & _). split; [exact Fi|].
      subst p2. destruct (flushed_idle _ _ _ _ _ _ _ _ E) as [-> | ->]; exact I. }
    destruct (w_fut w1) as [u|] eqn:Fu; [exact FF|]. destruct (w_cap w1 =? length (w_buf w1)); [exact FF|].
    intros [= <- <- <-]. exists ps. cbn [errs_of]. rewrite Nat.add_0_r. split; [exact I1|]. intros k _. unfold in_flight. rewrite Fu. split; [reflexivity|exact I]. }
  clearbody fl. destruct fl as [[[w2 db2] p2]| |]; try discriminate. destruct (FL _ _ _ eq_refl) as (ps' & I2 & R). destruct p2 as [|k2|].
  - intros [= <- <- <-]. exists ps'. rewrite app_nil_r. exact I2.
  - intros [= <- <- <-]. exists ps'. destruct (R _ eq_refl) as (Fi & Na). destruct I2 as [W C A L B K Z]. constructor; cbn; try assumption.
    + rewrite A. unfold in_flight in *. cbn [w_fut]. rewrite !app_assoc. reflexivity.
    + destruct (w_fut w2) as [[d|ok|]|] eqn:Fu; try exact I; [|contradiction]. unfold in_flight in Fi. rewrite Fu in Fi. destruct B. subst. congruence.
    + rewrite app_length, firstn_length. lia.
  - intros [= <- <- <-]. exists ps'. rewrite app_nil_r. exact I2.
Qed.

Lemma resize_inv bs f q n c0 acc errs w db ps w' db' p : 0 < bs -> inv bs f c0 acc errs w db ps -> poll_resize bs f q n w db = Done (w', db', p) ->
  exists ps', inv bs f c0 acc (errs + errs_of p) w' db' ps'.
Proof.
  intros Hb I0. unfold poll_resize. destruct (Nat.ltb_spec 0 (w_cap w)) as [Cp|Cp].
  - destruct (poll_flush bs f q w db) as [[[w2 db2] p2]| |] eqn:E; try discriminate. destruct (flush_inv _ _ _ _ _ _ _ _ _ _ _ _ Hb I0 E) as (ps' & I2 & _ & R).
    destruct p2 as [|k2|]; intros [= <- <- <-]; exists ps'; try exact I2. destruct (R _ eq_refl) as (B0 & F0 & U0). destruct I2 as [W C A L B K Z]. unfold in_flight in *. constructor; cbn; try assumption.
    + rewrite A. unfold in_flight. cbn [w_fut]. rewrite F0, B0. reflexivity.
    + destruct (w_fut w2) as [[d|ok|]|]; try exact I; [|reflexivity]. split; [reflexivity|apply B].
    + lia.
    + intros _. apply (flushed_idle _ _ _ _ _ _ _ _ E).
  - intros [= <- <- <-]. exists ps. cbn [errs_of]. rewrite Nat.add_0_r. destruct I0 as [W C A L B K Z]. assert (w_buf w = []) by (destruct (w_buf w); [reflexivity|cbn in K; lia]).
    constructor; cbn; try assumption.
    + unfold in_flight in *. cbn [w_fut]. rewrite A, H. reflexivity.
    + destruct (Z ltac:(lia)) as [-> | ->]; exact I.
    + lia.
    + intros _. apply Z. lia.
Qed.

Lemma arrive_inv bs f h d c0 acc errs b c db ps db' ok : 0 < bs -> inv bs f c0 acc errs (Wr b c (Some (Running d))) db ps -> perform bs f h d db = (db', ok) ->
  exists ps', inv bs f c0 acc errs (Wr b c (Some (Answered ok))) db' ps'.
Proof.
  intros Hb [W C A L B K Z] P. destruct (perform_spec _ _ _ _ _ _ _ Hb W P) as (x & W2 & C2 & O). cbn in *. destruct B as (B & Nd). exists (ps ++ [(d, x)]). unfold in_flight, unread in *. cbn in *. constructor; cbn.
  - exact W2.
  - rewrite C2, C, landed_snoc, app_assoc. reflexivity.
  - rewrite all_snoc, A, B, !app_nil_r. reflexivity.
  - rewrite lost_snoc. unfold unread. cbn. destruct ok; cbn; [rewrite O by reflexivity|destruct x]; lia.
  - exact B.
  - exact K.
  - intros Zc. destruct (Z Zc); discriminate.
Qed.

Lemma step_inv bs f e s s1 p c0 acc errs w ps : 0 < bs -> on_appender e -> s_wr s = Some w -> inv bs f c0 acc errs w (s_db s) ps -> step bs f e s = Done (s1, p) ->
  exists w1 ps1, s_wr s1 = Some w1 /\ s_tasks s1 = s_tasks s /\ inv bs f c0 (acc ++ accepted [(e, p)]) (errs + errors [(e, p)]) w1 (s_db s1) ps1.
Proof.
  intros Hb Oe Ew I0. unfold step. destruct e as [q data|q|q n|h| | |i h|i]; cbn in Oe; try contradiction; rewrite Ew.
  - destruct (poll_write bs f q data w (s_db s)) as [[[w1 db1] r]| |] eqn:E; try discriminate. intros [= <- <-]. destruct (write_inv _ _ _ _ _ _ _ _ _ _ _ _ _ Hb I0 E) as (ps' & I1).
    exists w1, ps'. split; [reflexivity|]. split; [reflexivity|]. cbn [s_db]. destruct r; cbn in *; rewrite ?app_nil_r in *; exact I1.
  - destruct (poll_flush bs f q w (s_db s)) as [[[w1 db1] r]| |] eqn:E; try discriminate. intros [= <- <-]. destruct (flush_inv _ _ _ _ _ _ _ _ _ _ _ _ Hb I0 E) as (ps' & I1 & _).
    exists w1, ps'. split; [reflexivity|]. split; [reflexivity|]. cbn [s_db]. destruct r; cbn in *; rewrite ?app_nil_r in *; exact I1.
  - destruct (poll_resize bs f q n w (s_db s)) as [[[w1 db1] r]| |] eqn:E; try discriminate. intros [= <- <-]. destruct (resize_inv _ _ _ _ _ _ _ _ _ _ _ _ _ Hb I0 E) as (ps' & I1).
    exists w1, ps'. split; [reflexivity|]. split; [reflexivity|]. cbn [s_db]. destruct r; cbn in *; rewrite ?app_nil_r in *; exact I1.
  - destruct w as [b c [[d|ok|]|]]; try discriminate. destruct (perform bs f h d (s_db s)) as [db1 ok] eqn:P. intros [= <- <-].
    destruct (arrive_inv _ _ _ _ _ _ _ _ _ _ _ _ _ Hb I0 P) as (ps' & I1). eexists _, ps'. split; [reflexivity|]. split; [reflexivity|]. cbn. rewrite app_nil_r, Nat.add_0_r. exact I1.
Qed.

Lemma accepted_app h1 h2 : accepted (h1 ++ h2) = accepted h1 ++ accepted h2.
Proof. induction h1 as [|[e p] r IH]; [reflexivity|]. cbn [app accepted]. destruct e; try exact IH. destruct p; try exact IH. rewrite IH, app_assoc. reflexivity. Qed.
Lemma errors_app h1 h2 : errors (h1 ++ h2) = errors h1 + errors h2.
Proof. induction h1 as [|[e p] r IH]; [reflexivity|]. cbn [app errors]. destruct p; rewrite IH; reflexivity. Qed.

Lemma arun_inv bs f s h s' : 0 < bs -> arun bs f s h s' -> calls h -> forall c0 acc errs w ps, s_wr s = Some w -> inv bs f c0 acc errs w (s_db s) ps ->
  exists w' ps', s_wr s' = Some w' /\ s_tasks s' = s_tasks s /\ inv bs f c0 (acc ++ accepted h) (errs + errors h) w' (s_db s') ps'.
Proof.
  intros Hb R. induction R as [s|s e s1 p h s' S R IH|s es db1 h s' Ru Fo R IH]; intros Ca c0 acc errs w ps Ew I0.
  - exists w, ps. cbn. rewrite app_nil_r, Nat.add_0_r. repeat split; try assumption; apply I0.
  - inversion Ca as [|? ? Oe Ca']; subst. destruct (step_inv _ _ _ _ _ _ _ _ _ _ _ Hb Oe Ew I0 S) as (w1 & ps1 & E1 & T1 & I1). destruct (IH Ca' _ _ _ _ _ E1 I1) as (w' & ps' & E' & T' & I').
    exists w', ps'. split; [exact E'|]. split; [congruence|]. change ((e, p) :: h) with ([(e, p)] ++ h). rewrite accepted_app, errors_app, app_assoc, Nat.add_assoc. exact I'.
  - refine (IH Ca c0 acc errs w ps Ew _). cbn [s_db]. destruct I0 as [W C A L B K Z]. destruct (runs_other _ _ _ _ _ Hb W Ru Fo) as (W1 & E1). constructor; try assumption. rewrite E1. exact C.
Qed.

Lemma start_inv bs f db : wf bs db -> inv bs f (content db f) [] 0 append_buffered db [].
Proof. intros W. constructor; cbn; try exact I; try lia; try exact W; try reflexivity. - rewrite app_nil_r. reflexivity. - left. reflexivity. Qed.

Lemma history bs es f db c0 h s' : 0 < bs -> runs bs empty_db es db -> reads_as bs db f c0 -> arun bs f (start db) h s' -> calls h ->
  exists w ps, s_wr s' = Some w /\ s_tasks s' = [] /\ inv bs f c0 (accepted h) (errors h) w (s_db s') ps.
Proof.
  intros Hb R RA AR Ca. assert (W := runs_wf _ _ _ _ Hb (wf_empty bs) R). rewrite (reads_as_unique _ _ _ _ W RA).
  destruct (arun_inv _ _ _ _ _ Hb AR Ca _ _ _ append_buffered [] eq_refl (start_inv bs f db W)) as (w & ps & Ew & T & Iv). exists w, ps. split; [exact Ew|]. split; [exact T|exact Iv].
Qed.

(* ================= C87 ================= *)
(* Every history of calls on one asynchronous appender, whatever was polled,
   cancelled and polled again, whenever the transactions were executed and whatever
   their fate: the file is its old contents followed by some of the accepted bytes,
   cut into pieces that are each there whole or not at all, in the order of the
   writes; what is missing is one flush in flight, the buffer, and at most as many
   pieces as there were errors (one of them possibly not yet reported). *)
Theorem C87_pieces bs es f db c0 h s' w : 0 < bs -> runs bs empty_db es db -> reads_as bs db f c0 -> arun bs f (start db) h s' -> calls h -> s_wr s' = Some w ->
  exists pieces : list (bytes * bool),
    accepted h = concat (map fst pieces) ++ in_flight w ++ w_buf w /\
    reads_as bs (s_db s') f (c0 ++ concat (map fst (filter snd pieces))) /\
    length (filter (fun p => negb (snd p)) pieces) <= errors h + match w_fut w with Some (Answered false) => 1 | _ => 0 end.
Proof.
  intros Hb R RA AR Ca Ew. destruct (history _ _ _ _ _ _ _ Hb R RA AR Ca) as (w' & ps & Ew' & _ & [W C A L B K Z]). replace w' with w in * by congruence. exists ps. split; [exact A|]. split; [|exact L].
  fold (landed ps). rewrite <- C. apply reads_as_wf, W.
Qed.
(* Without errors nothing is lost, doubled or reordered: file, flush in flight and
   buffer together are the old contents and the accepted bytes. *)
Theorem C87_stream bs es f db c0 h s' w : 0 < bs -> runs bs empty_db es db -> reads_as bs db f c0 -> arun bs f (start db) h s' -> calls h -> s_wr s' = Some w ->
  errors h = 0 -> w_fut w <> Some (Answered false) ->
  exists written, c0 ++ accepted h = written ++ in_flight w ++ w_buf w /\ reads_as bs (s_db s') f written.
Proof.
  intros Hb R RA AR Ca Ew E0 Nf. destruct (history _ _ _ _ _ _ _ Hb R RA AR Ca) as (w' & ps & Ew' & _ & [W C A L B K Z]). replace w' with w in * by congruence.
  assert (L0 : lost ps = 0). { unfold unread in L. destruct (w_fut w) as [[d|[|]|]|]; try congruence; lia. }
  exists (content (s_db s') f). split; [|apply reads_as_wf, W]. rewrite C, A, (lost_0 _ L0), <- !app_assoc. reflexivity.
Qed.
(* A flush (shutdown, set_buffer_size on an appender in use) that answers Ok with no
   error before it: the file is complete. *)
Theorem C87_flush bs es f db c0 h s' w q s2 k : 0 < bs -> runs bs empty_db es db -> reads_as bs db f c0 -> arun bs f (start db) h s' -> calls h -> s_wr s' = Some w ->
  errors h = 0 ->
  step bs f (Flush q) s' = Done (s2, ReadyOk k) \/ (exists n, 0 < w_cap w /\ step bs f (Resize q n) s' = Done (s2, ReadyOk k)) ->
  reads_as bs (s_db s2) f (c0 ++ accepted h).
Proof.
  intros Hb R RA AR Ca Ew E0 S. destruct (history _ _ _ _ _ _ _ Hb R RA AR Ca) as (w' & ps & Ew' & _ & Iv). replace w' with w in * by congruence. clear w' Ew'.
  assert (F : exists w2 k2, poll_flush bs f q w (s_db s') = Done (w2, s_db s2, ReadyOk k2)).
  { destruct S as [S|(n & Cp & S)]; unfold step in S; rewrite Ew in S.
    - destruct (poll_flush bs f q w (s_db s')) as [[[w1 db1] r]| |]; try discriminate. destruct r; try discriminate. injection S as <- _. eexists _, _. reflexivity.
    - unfold poll_resize in S. replace (0 <? w_cap w) with true in S by lia. destruct (poll_flush bs f q w (s_db s')) as [[[w1 db1] r]| |]; try discriminate. destruct r; try discriminate.
      injection S as <- _. eexists _, _. reflexivity. }
  destruct F as (w2 & k2 & F). destruct (flush_inv _ _ _ _ _ _ _ _ _ _ _ _ Hb Iv F) as (ps2 & [W C A L B K Z] & _ & Q). destruct (Q _ eq_refl) as (B0 & F0 & U0). rewrite E0, U0 in L. cbn in L.
  rewrite A, B0, F0, !app_nil_r, <- (lost_0 ps2) by lia. rewrite <- C. apply reads_as_wf, W.
Qed.

(* A poll is Pending only while the flush is under way, takes nothing then, and
   once the answer is there the next poll of any call is Ready. *)
Theorem C87_pending bs f e s w : on_appender e -> (forall h, e <> Arrive h) -> s_wr s = Some w ->
  (forall s1, step bs f e s = Done (s1, Pending) -> s_db s1 = s_db s /\ exists w1 d, s_wr s1 = Some w1 /\ w_fut w1 = Some (Running d) /\
     in_flight w1 ++ w_buf w1 = in_flight w ++ w_buf w) /\
  (forall ok, w_fut w = Some (Answered ok) -> w_cap w <> 0 -> exists s1 p, step bs f e s = Done (s1, p) /\ p <> Pending /\ (p = ReadyErr <-> ok = false)).
Proof.
  intros Oe Na Ew.
  assert (PF : forall q w0 w1 db1, w_buf w0 = w_buf w -> w_fut w0 = w_fut w -> poll_flush bs f q w0 (s_db s) = Done (w1, db1, Pending) -> db1 = s_db s /\ exists w2 d, Some w1 = Some w2 /\ w_fut w2 = Some (Running d) /\
     in_flight w2 ++ w_buf w2 = in_flight w ++ w_buf w).
  { intros q w0 w1 db1 Eb Ef. unfold poll_flush, in_flight. rewrite <- Ef. destruct (w_fut w0) as [[d|[|]|]|]; cbn.
    - destruct q as [h|]; [destruct (perform bs f h d (s_db s)) as [x [|]]; discriminate|]. intros [= <- <-]. split; [reflexivity|]. eexists _, d. cbn. rewrite Eb. repeat split.
    - discriminate.
    - discriminate.
    - discriminate.
    - destruct (w_buf w0) as [|x r]; [discriminate|]. cbn. destruct q as [h|]; [destruct (perform bs f h _ (s_db s)) as [y [|]]; discriminate|]. intros [= <- <-]. split; [reflexivity|]. eexists _, _. split; [reflexivity|]. split; [reflexivity|]. cbn. rewrite app_nil_r. exact Eb. }
  split.
  - intros s1. unfold step. destruct e as [q data|q|q n|h| | |i h|i]; cbn in Oe; try contradiction; rewrite Ew.
    + unfold poll_write. set (w1 := if (w_cap w =? 0)%nat then _ else w). assert (Eb : w_buf w1 = w_buf w) by (unfold w1; destruct (w_cap w =? 0); reflexivity). assert (Ef : w_fut w1 = w_fut w) by (unfold w1; destruct (w_cap w =? 0); reflexivity). clearbody w1.
      destruct (w_fut w1) as [u|] eqn:Fu; [|destruct (w_cap w1 =? length (w_buf w1)); [|discriminate]]; rewrite <- Fu in Ef;
        (destruct (poll_flush bs f q w1 (s_db s)) as [[[w2 db2] [|k|]]| |] eqn:E; try discriminate; intros [= <-]; exact (PF _ _ _ _ Eb Ef E)).
    + destruct (poll_flush bs f q w (s_db s)) as [[[w2 db2] [|k|]]| |] eqn:E; try discriminate. intros [= <-]. exact (PF _ _ _ _ eq_refl eq_refl E).
    + unfold poll_resize. destruct (0 <? w_cap w); [|discriminate]. destruct (poll_flush bs f q w (s_db s)) as [[[w2 db2] [|k|]]| |] eqn:E; try discriminate. intros [= <-]. exact (PF _ _ _ _ eq_refl eq_refl E).
    + exfalso. apply (Na h). reflexivity.
  - intros ok Fu Cz. unfold step. destruct e as [q data|q|q n|h| | |i h|i]; cbn in Oe; try contradiction; rewrite Ew.
    + unfold poll_write. replace (w_cap w =? 0) with false by lia. rewrite Fu. unfold poll_flush. rewrite Fu. cbn. destruct ok; cbn; eexists _, _; (split; [reflexivity|]); split; try discriminate; split; congruence.
    + unfold poll_flush. rewrite Fu. cbn. destruct ok; cbn; eexists _, _; (split; [reflexivity|]); split; try discriminate; split; congruence.
    + unfold poll_resize. replace (0 <? w_cap w) with true by lia. unfold poll_flush. rewrite Fu. cbn. destruct ok; cbn; eexists _, _; (split; [reflexivity|]); split; try discriminate; split; congruence.
    + exfalso. apply (Na h). reflexivity.
Qed.

(* After an error the appender holds nothing any more: the bytes of the failed
   flush are gone (the synchronous appender keeps them and tries again). *)
Theorem C87_error_discards bs es f db c0 h s' e s1 : 0 < bs -> runs bs empty_db es db -> reads_as bs db f c0 -> arun bs f (start db) h s' -> calls h -> on_appender e ->
  step bs f e s' = Done (s1, ReadyErr) -> exists w1, s_wr s1 = Some w1 /\ in_flight w1 = [] /\ w_buf w1 = [].
Proof.
  intros Hb R RA AR Ca Oe S. destruct (history _ _ _ _ _ _ _ Hb R RA AR Ca) as (w & ps & Ew & _ & [W C A L B K Z]).
  assert (PF : forall q w0 w1 db1, w_buf w0 = w_buf w -> w_fut w0 = w_fut w -> poll_flush bs f q w0 (s_db s') = Done (w1, db1, ReadyErr) -> in_flight w1 = [] /\ w_buf w1 = []).
  { intros q w0 w1 db1 Eb Ef. unfold poll_flush, in_flight. rewrite Ef, Eb. destruct (w_fut w) as [[d|[|]|]|]; cbn.
    - destruct q as [h0|]; [|discriminate]. destruct (perform bs f h0 d (s_db s')) as [x [|]]; cbn; [discriminate|]. intros [= <- <-]. cbn. split; [reflexivity|apply B].
    - discriminate.
    - intros [= <- <-]. cbn. split; [reflexivity|apply B].
    - discriminate.
    - destruct (w_buf w) as [|x r]; [discriminate|]. cbn. destruct q as [h0|]; [|discriminate]. destruct (perform bs f h0 _ (s_db s')) as [y [|]]; cbn; [discriminate|]. intros [= <- <-]. cbn. split; reflexivity. }
  unfold step in S. destruct e as [q data|q|q n|h0| | |i h0|i]; cbn in Oe; try contradiction; rewrite Ew in S.
  - unfold poll_write in S. set (w1 := if (w_cap w =? 0)%nat then _ else w) in S. assert (Eb : w_buf w1 = w_buf w) by (unfold w1; destruct (w_cap w =? 0); reflexivity). assert (Ef : w_fut w1 = w_fut w) by (unfold w1; destruct (w_cap w =? 0); reflexivity). clearbody w1.
    destruct (w_fut w1) as [u|] eqn:Fu; [|destruct (w_cap w1 =? length (w_buf w1)); [|discriminate]]; rewrite <- Fu in Ef;
      (destruct (poll_flush bs f q w1 (s_db s')) as [[[w2 db2] [|k|]]| |] eqn:E; try discriminate; injection S as <-; exists w2; split; [reflexivity|]; exact (PF _ _ _ _ Eb Ef E)).
  - destruct (poll_flush bs f q w (s_db s')) as [[[w2 db2] [|k|]]| |] eqn:E; try discriminate. injection S as <-. exists w2. split; [reflexivity|]. exact (PF _ _ _ _ eq_refl eq_refl E).
  - unfold poll_resize in S. destruct (0 <? w_cap w); [|discriminate]. destruct (poll_flush bs f q w (s_db s')) as [[[w2 db2] [|k|]]| |] eqn:E; try discriminate. injection S as <-. exists w2. split; [reflexivity|]. exact (PF _ _ _ _ eq_refl eq_refl E).
  - destruct w as [b c [[d|ok|]|]]; try discriminate. destruct (perform bs f h0 d (s_db s')); discriminate.
Qed.

(* With answers that arrive between polls, no call panics, and neither does
   dropping the appender. *)
Lemma flush_not_finished bs f w db w' db' p : w_fut w <> Some Finished -> poll_flush bs f None w db = Done (w', db', p) -> w_fut w' <> Some Finished.
Proof.
  intros N. unfold poll_flush. destruct (w_fut w) as [[d|[|]|]|] eqn:Fu; cbn; try congruence; try (intros [= <- <- <-]; discriminate).
  destruct (w_buf w); cbn; intros [= <- <- <-]; [congruence|discriminate].
Qed.
Lemma step_not_finished bs f e s s1 p w : unhurried e -> on_appender e -> s_wr s = Some w -> w_fut w <> Some Finished -> step bs f e s = Done (s1, p) ->
  exists w1, s_wr s1 = Some w1 /\ w_fut w1 <> Some Finished.
Proof.
  intros U Oe Ew Nf. unfold step. destruct e as [q data|q|q n|h| | |i h|i]; cbn in Oe, U; try contradiction; rewrite Ew; try subst q.
  - unfold poll_write. set (w1 := if (w_cap w =? 0)%nat then _ else w). assert (Ef : w_fut w1 <> Some Finished) by (unfold w1; destruct (w_cap w =? 0); exact Nf). clearbody w1.
    set (fl := match w_fut w1 with Some _ => _ | None => _ end).
    assert (FL : forall w2 db2 r, fl = Done (w2, db2, r) -> w_fut w2 <> Some Finished).
    { intros w2 db2 r. unfold fl. destruct (w_fut w1) as [u|] eqn:Fu; [rewrite <- Fu in Ef; apply flush_not_finished; exact Ef|].
      destruct (w_cap w1 =? length (w_buf w1)); [apply flush_not_finished; congruence|]. intros [= <- <- <-]. congruence. }
    clearbody fl. destruct fl as [[[w2 db2] [|k|]]| |]; try discriminate; intros [= <- <-]; eexists; (split; [reflexivity|]); cbn; exact (FL _ _ _ eq_refl).
  - destruct (poll_flush bs f None w (s_db s)) as [[[w2 db2] r]| |] eqn:E; try discriminate. intros [= <- <-]. eexists. split; [reflexivity|]. exact (flush_not_finished _ _ _ _ _ _ _ Nf E).
  - unfold poll_resize. destruct (0 <? w_cap w); [|intros [= <- <-]; eexists; split; [reflexivity|exact Nf]].
    destruct (poll_flush bs f None w (s_db s)) as [[[w2 db2] r]| |] eqn:E; try discriminate. pose proof (flush_not_finished _ _ _ _ _ _ _ Nf E). destruct r; intros [= <- <-]; eexists; (split; [reflexivity|]); exact H.
  - destruct w as [b c [[d|ok|]|]]; try discriminate. destruct (perform bs f h d (s_db s)). intros [= <- <-]. eexists. split; [reflexivity|]. discriminate.
Qed.
Theorem C87_no_panic bs es f db c0 h s' e : 0 < bs -> runs bs empty_db es db -> reads_as bs db f c0 -> arun bs f (start db) h s' -> calls h ->
  Forall (fun x => unhurried (fst x)) h -> (on_appender e /\ unhurried e) \/ e = DropIt -> step bs f e s' <> Panic.
Proof.
  intros Hb R RA AR Ca Un De.
  assert (NF : exists w, s_wr s' = Some w /\ w_fut w <> Some Finished).
  { assert (G : forall s, arun bs f s h s' -> (exists w, s_wr s = Some w /\ w_fut w <> Some Finished) -> exists w, s_wr s' = Some w /\ w_fut w <> Some Finished).
    { clear - Ca Un. intros s R. induction R as [s|s e s1 p h s' S R IH|s es db1 h s' Ru Fo R IH]; intros (w & Ew & Nf).
      - exists w. split; assumption.
      - inversion Ca; inversion Un; subst. apply IH; [assumption|assumption|]. eapply step_not_finished; eassumption.
      - apply IH; [assumption|assumption|]. exists w. split; assumption. }
    apply (G _ AR). exists append_buffered. split; [reflexivity|discriminate]. }
  destruct NF as (w & Ew & Nf). destruct (history _ _ _ _ _ _ _ Hb R RA AR Ca) as (w' & ps & Ew' & _ & [W C A L B K Z]). replace w' with w in * by congruence. clear w' Ew'.
  assert (PF : forall w0 db0, w_fut w0 <> Some Finished -> poll_flush bs f None w0 db0 <> Panic).
  { intros w0 db0 N0. unfold poll_flush. destruct (w_fut w0) as [[d|[|]|]|]; cbn; try discriminate; try congruence. destruct (w_buf w0); cbn; discriminate. }
  destruct De as [(Oe & Ue)| ->].
  - unfold step. destruct e as [q data|q|q n|h0| | |i h0|i]; cbn in Oe, Ue; try contradiction; rewrite Ew; try subst q.
    + unfold poll_write. set (w1 := if (w_cap w =? 0)%nat then _ else w). assert (Ef : w_fut w1 <> Some Finished) by (unfold w1; destruct (w_cap w =? 0); exact Nf). clearbody w1.
      pose proof (PF w1 (s_db s') Ef) as P1. destruct (w_fut w1) as [u|]; [|destruct (w_cap w1 =? length (w_buf w1)); [|discriminate]];
        (destruct (poll_flush bs f None w1 (s_db s')) as [[[w2 db2] [|k|]]| |]; try discriminate; congruence).
    + pose proof (PF w (s_db s') Nf). destruct (poll_flush bs f None w (s_db s')) as [[[w2 db2] r]| |]; try discriminate. congruence.
    + unfold poll_resize. pose proof (PF w (s_db s') Nf). destruct (0 <? w_cap w); [|discriminate]. destruct (poll_flush bs f None w (s_db s')) as [[[w2 db2] [|k|]]| |]; try discriminate. congruence.
    + destruct w as [b c [[d|ok|]|]]; try discriminate. destruct (perform bs f h0 d (s_db s')). discriminate.
  - unfold step. rewrite Ew. unfold drop_writer. destruct (w_fut w) as [[d|ok|]|]; try congruence.
    + rewrite (proj1 B). discriminate.
    + rewrite B. discriminate.
    + destruct (w_buf w); discriminate.
Qed.

(* A flush whose transaction is answered in the poll that submits it leaves the
   finished future behind: the next poll of a flush panics, so does the next write,
   and if the flush was part of a write (so bytes are buffered again), so does
   dropping the appender. *)
Theorem C87_quick_answer bs f h w db : w_buf w <> [] -> w_fut w = None -> w_cap w = length (w_buf w) ->
  exists s1 p, step bs f (Flush (Some h)) (St db (Some w) []) = Done (s1, p) /\ p <> Pending /\
    (forall q, step bs f (Flush q) s1 = Panic) /\ (forall q data, step bs f (Write q data) s1 = Panic) /\ (forall q n, step bs f (Resize q n) s1 = Panic).
Proof.
  intros Nb Fu Cp. unfold step. cbn [s_wr s_db s_tasks]. unfold poll_flush at 1. rewrite Fu. destruct (w_buf w) as [|x r] eqn:Bu; [congruence|]. cbn [poll_future].
  destruct (perform bs f h (x :: r) db) as [db' ok]. eexists _, _. split; [reflexivity|]. split; [destruct ok; discriminate|]. cbn [s_wr s_db].
  assert (P : forall q w0, w_fut w0 = Some Finished -> poll_flush bs f q w0 db' = Panic) by (intros q w0 E; unfold poll_flush; rewrite E; reflexivity).
  split; [intros q; rewrite P by reflexivity; reflexivity|]. split.
  - intros q data. unfold poll_write. cbn [w_cap]. rewrite Cp. cbn [length Nat.eqb]. cbn [w_fut]. rewrite P by reflexivity. reflexivity.
  - intros q n. unfold poll_resize. cbn [w_cap]. rewrite Cp. cbn [length Nat.ltb Nat.leb]. rewrite P by reflexivity. reflexivity.
Qed.
Theorem C87_quick_write bs f t w db data db' : w_buf w <> [] -> w_fut w = None -> w_cap w = length (w_buf w) -> data <> [] -> append bs (w_buf w) f t db = Done db' ->
  exists s1 k, step bs f (Write (Some (Executed t)) data) (St db (Some w) []) = Done (s1, ReadyOk k) /\ 0 < k /\ step bs f DropIt s1 = Panic.
Proof.
  intros Nb Fu Cp Nd Ap. unfold step at 1. cbn [s_wr s_db s_tasks]. unfold poll_write.
  assert (Pl : 0 < length (w_buf w)) by (destruct (w_buf w); [congruence|cbn; lia]). replace (w_cap w =? 0) with false by lia. rewrite Fu. replace (w_cap w =? length (w_buf w)) with true by lia.
  unfold poll_flush. rewrite Fu. destruct (w_buf w) as [|x r] eqn:Bu; [congruence|]. rewrite <- Bu in *. cbn [poll_future perform]. rewrite Ap. cbn [ready w_cap w_buf w_fut length app].
  eexists _, _. split; [reflexivity|]. assert (0 < length data) by (destruct data; [congruence|cbn; lia]). split; [lia|].
  unfold step. cbn [s_wr]. unfold drop_writer. cbn [w_buf w_fut]. destruct data as [|y ys]; [congruence|]. destruct (Nat.min (length (y :: ys)) (w_cap w - 0)) eqn:M; [cbn [length] in M; lia|]. cbn [firstn]. reflexivity.
Qed.

(* A write that is Ready accepts something (so write_all ends) when the block size
   is at most 1 MiB. *)
Theorem C87_progress bs es f db c0 h s' q data s1 k : 0 < bs -> (N.of_nat bs <= 1048576)%N -> runs bs empty_db es db -> reads_as bs db f c0 -> arun bs f (start db) h s' -> calls h ->
  data <> [] -> step bs f (Write q data) s' = Done (s1, ReadyOk k) -> 0 < k <= length data.
Proof.
  intros Hb HB R RA AR Ca Nd S. destruct (history _ _ _ _ _ _ _ Hb R RA AR Ca) as (w & ps & Ew & _ & Iv). unfold step in S. rewrite Ew in S. unfold poll_write in S.
  set (w1 := if (w_cap w =? 0)%nat then _ else w) in S.
  assert (I1 : inv bs f c0 (accepted h) (errors h) w1 (s_db s') ps /\ 0 < w_cap w1).
  { unfold w1. destruct (Nat.eqb_spec (w_cap w) 0) as [Z0|Z0]; [|split; [exact Iv|lia]]. destruct Iv as [W C A L B K Z]. split; [constructor; cbn; try assumption; [lia|]; intros _; apply Z; exact Z0|].
    cbn. unfold default_capacity. assert (1 <= 1048576 / N.of_nat bs)%N by (apply N.div_le_lower_bound; lia). assert (0 < 1048576 / N.of_nat bs * N.of_nat bs)%N by (apply N.mul_pos_pos; lia). lia. }
  clearbody w1. destruct I1 as (I1 & Cp). assert (LD : 0 < length data) by (destruct data; [congruence|cbn; lia]).
  assert (FF : forall w2 db2 k2, poll_flush bs f q w1 (s_db s') = Done (w2, db2, ReadyOk k2) -> w_buf w2 = [] /\ w_cap w2 = w_cap w1).
  { intros w2 db2 k2 E. destruct (flush_inv _ _ _ _ _ _ _ _ _ _ _ _ Hb I1 E) as (ps' & _ & Ec & Q). split; [apply (Q k2 eq_refl)|exact Ec]. }
  destruct (w_fut w1) as [u|]; [|destruct (Nat.eqb_spec (w_cap w1) (length (w_buf w1))) as [CL|CL]].
  1,2: destruct (poll_flush bs f q w1 (s_db s')) as [[[w2 db2] [|k2|]]| |]; try discriminate; destruct (FF _ _ _ eq_refl) as (B0 & C0); injection S as _ <-; rewrite B0, C0; cbn [length]; lia.
  injection S as _ <-. pose proof (i_cap _ _ _ _ _ _ _ _ I1). lia.
Qed.

(* A fresh appender (and one set to size 0) buffers up to the largest multiple of
   the block size that fits 1 MiB. *)
Theorem C87_default_size bs f q data db ts : 0 < bs -> exists cap s1 w1 k,
  step bs f (Write q data) (St db (Some append_buffered) ts) = Done (s1, ReadyOk k) /\ s_wr s1 = Some w1 /\ w_cap w1 = cap /\
  k = Nat.min (length data) cap /\ w_buf w1 = firstn k data /\ s_db s1 = db /\
  (exists m, cap = m * bs) /\ (N.of_nat cap <= 1048576 < N.of_nat cap + N.of_nat bs)%N.
Proof.
  intros Hb. assert (D : N.of_nat (default_capacity bs) = (1048576 / N.of_nat bs * N.of_nat bs)%N) by (unfold default_capacity; apply N2Nat.id).
  pose proof (N.div_mod 1048576 (N.of_nat bs) ltac:(lia)) as DM. pose proof (N.mod_lt 1048576 (N.of_nat bs) ltac:(lia)) as ML.
  unfold step, poll_write. cbn [s_wr append_buffered w_cap w_buf w_fut Nat.eqb s_db s_tasks].
  destruct (default_capacity bs =? length (@nil N)) eqn:Z.
  - unfold poll_flush. cbn [w_fut w_buf w_cap]. eexists _, _, _, _. split; [reflexivity|]. split; [reflexivity|]. cbn [w_cap w_buf s_db length app]. rewrite Nat.sub_0_r. repeat (split; [reflexivity|]).
    split; [|lia]. exists (N.to_nat (1048576 / N.of_nat bs)). lia.
  - eexists _, _, _, _. split; [reflexivity|]. split; [reflexivity|]. cbn [w_cap w_buf s_db length app]. rewrite Nat.sub_0_r. repeat (split; [reflexivity|]).
    split; [|lia]. exists (N.to_nat (1048576 / N.of_nat bs)). lia.
Qed.

(* Dropping the appender with no flush pending and no errors before: either
   everything is in the file already, or one task holds the rest, and once it has
   run (while the file exists and block ids are left) the file is complete. *)
Theorem C87_drop bs es f db c0 h s' w s2 p : 0 < bs -> runs bs empty_db es db -> reads_as bs db f c0 -> arun bs f (start db) h s' -> calls h -> s_wr s' = Some w ->
  errors h = 0 -> w_fut w = None -> step bs f DropIt s' = Done (s2, p) ->
  (s_tasks s2 = [] /\ reads_as bs (s_db s2) f (c0 ++ accepted h)) \/
  (exists d, s_tasks s2 = [d] /\ forall es2 db2 t fl, runs bs (s_db s2) es2 db2 -> Forall (fun e => about e <> Some f) es2 ->
     lookup f (files db2) = Some fl -> (match last_id (blocks db2) with None => 0 | Some n => n end + N.of_nat (length d) < u64_mod)%N ->
     exists s3, step bs f (RunTask 0 (Executed t)) (St db2 None [d]) = Done (s3, Pending) /\ s_tasks s3 = [] /\ reads_as bs (s_db s3) f (c0 ++ accepted h)).
Proof.
  intros Hb R RA AR Ca Ew E0 Fu S. destruct (history _ _ _ _ _ _ _ Hb R RA AR Ca) as (w' & ps & Ew' & T & [W C A L B K Z]). replace w' with w in * by congruence. clear w' Ew'.
  unfold unread, in_flight in *. rewrite Fu in *. rewrite E0 in L. cbn in A, L. assert (C1 : content (s_db s') f ++ w_buf w = c0 ++ accepted h) by (rewrite C, A, (lost_0 ps) by lia; rewrite <- app_assoc; reflexivity).
  unfold step in S. rewrite Ew in S. unfold drop_writer in S. rewrite Fu, T in S. destruct (w_buf w) as [|x r] eqn:Bu.
  - injection S as <- <-. left. split; [reflexivity|]. rewrite <- C1, app_nil_r. apply reads_as_wf, W.
  - injection S as <- <-. right. exists (x :: r). split; [reflexivity|]. cbn [s_db]. rewrite <- Bu in *. intros es2 db2 t fl Ru Fo Lk Ids. destruct (runs_other _ _ _ _ _ Hb W Ru Fo) as (W2 & E2).
    assert (AP : exists db3, append bs (w_buf w) f t db2 = Done db3).
    { unfold append. rewrite Bu. destruct bs as [|bs']; [lia|]. rewrite Lk, <- Bu.
      assert (CL : (length (map (fun c => block_bytes c f t) (chunks (Datatypes.S bs') (w_buf w))) <= length (w_buf w))) by (rewrite List.map_length; apply chunks_count; lia).
      destruct (insert_blocks_ok (map (fun c => block_bytes c f t) (chunks (Datatypes.S bs') (w_buf w))) (blocks db2)) as (l' & E); [|rewrite E; eexists; reflexivity].
      destruct (last_id (blocks db2)); lia. }
    destruct AP as (db3 & AP). destruct (append_content _ _ _ _ _ _ Hb W2 AP) as (W3 & C3). unfold step. cbn [s_tasks nth_error s_db perform]. rewrite AP. eexists. split; [reflexivity|]. split; [reflexivity|].
    cbn [s_db]. rewrite <- C1, <- E2, <- C3. apply reads_as_wf, W3.
Qed.

(* ---------- examples and refutations ---------- *)
Definition get {A} (d : A) (r : outcome (A * polled) unit) : A := match r with Done (s, _) => s | _ => d end.
Fixpoint play (es : list event) (s : st) : option (st * list (event * polled)) :=
  match es with
  | [] => Some (s, [])
  | e :: r => match step 2 0 e s with
              | Done (s1, p) => match play r s1 with Some (s', h) => Some (s', (e, p) :: h) | None => None end
              | _ => None end
  end.
Lemma play_run es : forall s s' h, play es s = Some (s', h) -> arun 2 0 s h s'.
Proof.
  induction es as [|e r IH]; intros s s' h; cbn [play]; [intros [= <- <-]; constructor|]. destruct (step 2 0 e s) as [[s1 p]| |] eqn:E; try discriminate.
  destruct (play r s1) as [[s2 h2]|] eqn:P; [|discriminate]. intros [= <- <-]. eapply r_step; [exact E|]. apply IH. exact P.
Qed.
Lemma ex3_runs : runs 2 empty_db [FilesChanged] ex_db3.
Proof. eapply r_cons; [apply (s_files 2 empty_db ex_files); repeat constructor|constructor]. Qed.
Lemma ex3_wf : wf 2 ex_db3.
Proof. exact (runs_wf _ _ _ _ Nat.lt_0_2 (wf_empty 2) ex3_runs). Qed.
Lemma ex3_reads : reads_as 2 ex_db3 0 [].
Proof. exact (reads_as_wf 2 ex_db3 0 ex3_wf). Qed.
(* a small buffer, a write that has to wait for the flush, a second flush *)
Definition ex_events : list event :=
  [Resize None 3; Write None [1;2;3;4]%N; Write None [4;5]%N; Arrive (Executed 7); Write None [4;5]%N; Flush None; Flush None; Arrive (Executed 8); Flush None; Write None [6]%N].
Definition ex_end : st * list (event * polled) := match play ex_events (start ex_db3) with Some x => x | None => (start ex_db3, []) end.
Example C87_example : arun 2 0 (start ex_db3) (snd ex_end) (fst ex_end) /\ calls (snd ex_end) /\ Forall (fun x => unhurried (fst x)) (snd ex_end) /\
  map snd (snd ex_end) = [ReadyOk 0; ReadyOk 3; Pending; Pending; ReadyOk 2; Pending; Pending; Pending; ReadyOk 0; ReadyOk 1] /\
  accepted (snd ex_end) = [1;2;3;4;5;6]%N /\ errors (snd ex_end) = 0 /\ s_wr (fst ex_end) = Some (Wr [6]%N 3 None) /\ length (blocks (s_db (fst ex_end))) = 3 /\
  step 2 0 DropIt (fst ex_end) = Done (St (s_db (fst ex_end)) None [[6]%N], Pending) /\ lookup 0%N (files (s_db (fst ex_end))) <> None.
Proof.
  split; [apply (play_run ex_events); vm_compute; reflexivity|].
  assert (E : snd ex_end = combine ex_events [ReadyOk 0; ReadyOk 3; Pending; Pending; ReadyOk 2; Pending; Pending; Pending; ReadyOk 0; ReadyOk 1]) by (vm_compute; reflexivity).
  split; [unfold calls; rewrite E; unfold ex_events; cbn [combine]; repeat constructor|]. split; [rewrite E; unfold ex_events; cbn [combine]; repeat constructor|]. clear E.
  repeat match goal with |- _ /\ _ => split end; try (vm_compute; reflexivity). vm_compute. discriminate.
Qed.
Example C87_quick_example : exists w, w_buf w <> [] /\ w_fut w = None /\ w_cap w = length (w_buf w) /\ exists db', append 2 (w_buf w) 0 1 ex_db3 = Done db'.
Proof. exists (Wr [1;2]%N 2 None). repeat match goal with |- _ /\ _ => split end; try reflexivity; try discriminate. eexists. vm_compute. reflexivity. Qed.

(* an error loses the bytes although the file is there all the time and later
   flushes answer Ok *)
Definition retry : st * list (event * polled) :=
  match play [Resize None 3; Write None [1;2]%N; Flush None; Arrive NotSent; Flush None; Flush None] (start ex_db3) with Some x => x | None => (start ex_db3, []) end.
Theorem C87_retry_refuted : arun 2 0 (start ex_db3) (snd retry) (fst retry) /\ map snd (snd retry) = [ReadyOk 0; ReadyOk 2; Pending; Pending; ReadyErr; ReadyOk 0] /\
  accepted (snd retry) = [1;2]%N /\ reads_as 2 (s_db (fst retry)) 0 [] /\ s_tasks (fst retry) = [].
Proof.
  split; [apply (play_run [Resize None 3; Write None [1;2]%N; Flush None; Arrive NotSent; Flush None; Flush None]); vm_compute; reflexivity|].
  split; [vm_compute; reflexivity|]. split; [vm_compute; reflexivity|]. split; [|vm_compute; reflexivity]. replace (s_db (fst retry)) with ex_db3 by (vm_compute; reflexivity). exact ex3_reads.
Qed.
(* dropping the appender while a flush is pending may lose accepted bytes without
   any error *)
Definition cut : st * list (event * polled) :=
  match play [Resize None 3; Write None [1;2]%N; Flush None; DropIt; Abandon 0] (start ex_db3) with Some x => x | None => (start ex_db3, []) end.
Theorem C87_drop_pending_refuted : arun 2 0 (start ex_db3) (snd cut) (fst cut) /\ errors (snd cut) = 0 /\ accepted (snd cut) = [1;2]%N /\
  s_wr (fst cut) = None /\ s_tasks (fst cut) = [] /\ reads_as 2 (s_db (fst cut)) 0 [].
Proof.
  split; [apply (play_run [Resize None 3; Write None [1;2]%N; Flush None; DropIt; Abandon 0]); vm_compute; reflexivity|].
  split; [vm_compute; reflexivity|]. split; [vm_compute; reflexivity|]. split; [vm_compute; reflexivity|]. split; [vm_compute; reflexivity|].
  replace (s_db (fst cut)) with ex_db3 by (vm_compute; reflexivity). exact ex3_reads.
Qed.
(* the flush of a dropped appender may come after everything the next appender
   writes and flushes *)
Definition swapped_events : list event := [Resize None 3; Write None [1]%N; DropIt; OpenAgain; Resize None 3; Write None [2]%N; Flush None; Arrive (Executed 5); Flush None; RunTask 0 (Executed 6)].
Definition swapped : st * list (event * polled) := match play swapped_events (start ex_db3) with Some x => x | None => (start ex_db3, []) end.
Definition swapped_mid : fdb := match append 2 [2]%N 0 5 ex_db3 with Done d => d | _ => ex_db3 end.
Theorem C87_order_refuted : arun 2 0 (start ex_db3) (snd swapped) (fst swapped) /\ errors (snd swapped) = 0 /\ accepted (snd swapped) = [1;2]%N /\ reads_as 2 (s_db (fst swapped)) 0 [2;1]%N.
Proof.
  split; [apply (play_run swapped_events); vm_compute; reflexivity|]. split; [vm_compute; reflexivity|]. split; [vm_compute; reflexivity|].
  assert (A1 : append 2 [2]%N 0 5 ex_db3 = Done swapped_mid) by (vm_compute; reflexivity). assert (A2 : append 2 [1]%N 0 6 swapped_mid = Done (s_db (fst swapped))) by (vm_compute; reflexivity).
  destruct (append_content _ _ _ _ _ _ Nat.lt_0_2 ex3_wf A1) as (W1 & C1). destruct (append_content _ _ _ _ _ _ Nat.lt_0_2 W1 A2) as (W2 & C2).
  assert (C3 : content (s_db (fst swapped)) 0 = [2;1]%N) by (vm_compute; reflexivity). rewrite <- C3. apply reads_as_wf, W2.
Qed.

Print Assumptions C87_pieces.
Print Assumptions C87_stream.
Print Assumptions C87_flush.
Print Assumptions C87_pending.
Print Assumptions C87_error_discards.
Print Assumptions C87_no_panic.
Print Assumptions C87_quick_answer.
Print Assumptions C87_quick_write.
Print Assumptions C87_progress.
Print Assumptions C87_drop.
Print Assumptions C87_default_size.
Print Assumptions C87_retry_refuted.
Print Assumptions C87_drop_pending_refuted.
Print Assumptions C87_order_refuted.
