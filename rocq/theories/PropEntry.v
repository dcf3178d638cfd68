(* Property theorems C71: entries of a named collection (load, entry, or_insert_with,
   update_with, retry_limit, delete_by_name) while other clients change the database. *)
From Coq Require Import Lia Arith.
From Verif Require Import Base Key KeyPrefix DocId Tree View ViewProofs ViewMap Docs DocsProofs DocsSpec DocsMore DocsHist ViewSyncProofs PropDocs Query PropViews PropQuery Modify PropModify Entry EntryProofs.
Local Open Scope N_scope.

(* Loading: by id, the document stored at the end of the load. By name, there is an
   earlier moment s1 at which the view was read: the document is, among those that had
   the name at s1 and still exist at the end, the one with the lowest id; None: none of
   those that had the name at s1 exists any more. [named v s n i]: at s the document
   with id i exists and the view emits n for it. *)
Theorem C71_load : forall E pv p v r s s' x, env_ok E -> reach E s -> In v (ev_views E) ->
  load E pv p v r s s' (Done x) ->
  match r with
  | RId i => others E s s' /\ x = doc_at s' (vw_coll v) i
  | RName n => exists s1, others E s s1 /\ others E s1 s' /\
      match x with
      | Some d => doc_at s' (vw_coll v) (h_id (d_header d)) = Some d /\
          (~ pending s1 v (h_id (d_header d)) -> named v s1 n (h_id (d_header d))) /\
          (forall i d', ~ pending s1 v i -> named v s1 n i -> doc_at s' (vw_coll v) i = Some d' -> lex (h_id (d_header d)) i <> Gt)
      | None => forall i, ~ pending s1 v i -> named v s1 n i -> doc_at s' (vw_coll v) i = None
      end
  end.
Proof.
  intros E pv p v r s s' x EO R I L. pose proof (others_reach _ _ _ (load_others _ _ _ _ _ _ _ _ L) R) as R'.
  inversion L as [i a b O X Y Z W|n a b e O Q|n a b ms c0 O Q O2 X Y Z W]; subst.
  - split; [exact O|]. unfold get_doc in W. destruct (p ActGet (vw_coll v) (Some i)); [|discriminate]. injection W as <-. reflexivity.
  - pose proof (others_reach _ _ _ O R) as R1. exists b. split; [exact O|]. split; [exact O2|].
    pose proof (first_doc_spec E p s' _ _ _ EO R' W) as F. destruct x as [d|].
    + destruct F as (G & IN & MIN). split; [exact G|]. split.
      * intros P. apply (sources_named E pv b v n ms _ EO R1 I Q P), IN.
      * intros i d' P N D. apply (MIN i d'); [|exact D]. apply (sources_named E pv b v n ms _ EO R1 I Q P), N.
    + intros i P N. apply F. apply (sources_named E pv b v n ms _ EO R1 I Q P), N.
Qed.

(* What an entry does: no write, or one insert, or at most limit + 1 updates of one
   document, of which all but the last were refused as conflicts and changed nothing.
   The k-th update carries the k-th result of the callback on a stored version of the
   document. *)
Definition refused_conflict (t : sent) : Prop := after t = before t /\ exists c h, answer t = Fail (DocumentConflict c h).
Lemma attempts_log E pv p v f limit n d s l s' o : env_ok E -> reach E s ->
  doc_at s (vw_coll v) (h_id (d_header d)) = Some d -> attempts E pv p v f limit n d s l s' o ->
  (length l <= S limit)%nat /\
  (exists l0 t, l = l0 ++ [t] /\ Forall refused_conflict l0) /\
  forall k t, nth_error l k = Some t -> exists x y, reach E y /\ others E y (before t) /\
    doc_at y (vw_coll v) (h_id (d_header d)) = Some x /\
    op t = mk_op (vw_coll v) (Update (d_header x) (f (n + k)%nat (d_contents x))) /\
    apply_transaction E p (before t) [op t] = (after t, answer t).
Proof.
  intros EO R D A. revert R D. induction A as [limit n d s s1 s2 o O AP C|n d s s1 s2 c h O AP|limit n d s s1 s2 c h s3 o O AP LD ND|limit n d s s1 s2 c h s3 d' l s' o O AP LD A IH]; intros R D.
  - split; [cbn; lia|]. split; [exists [], (mk_sent s1 (mk_op (vw_coll v) (Update (d_header d) (f n (d_contents d)))) s2 o); split; [reflexivity|constructor]|].
    intros [|[|k]] t N; cbn in N; try discriminate. injection N as <-. exists d, s. rewrite Nat.add_0_r. cbn [before op after answer]. auto.
  - split; [cbn; lia|]. split; [eexists [], _; split; [reflexivity|constructor]|].
    intros [|[|k]] t N; cbn in N; try discriminate. injection N as <-. exists d, s. rewrite Nat.add_0_r. cbn [before op after answer]. auto.
  - split; [cbn; lia|]. split; [eexists [], _; split; [reflexivity|constructor]|].
    intros [|[|k]] t N; cbn in N; try discriminate. injection N as <-. exists d, s. rewrite Nat.add_0_r. cbn [before op after answer]. auto.
  - pose proof (others_reach _ _ _ O R) as R1.
    assert (S2 : s2 = s1). { destruct (apply_cases _ _ _ _ _ _ AP) as [(rs & ? & ? & ? & X & _)|[X _]]; [discriminate X|exact X]. }
    assert (R2 : reach E s2) by (rewrite S2; exact R1).
    pose proof (others_reach _ _ _ (load_others _ _ _ _ _ _ _ _ LD) R2) as R3.
    assert (HID : h_id h = h_id (d_header d)).
    { destruct (C21_fails_only_if_refused E p s1 _ _ (DocumentConflict c h) ltac:(rewrite <- S2 at 2; exact AP)) as [X|[X|[X|[[x X]|[x X]]]]]; try discriminate X.
      - unfold apply_transaction in AP. cbn [forallb] in AP. rewrite X in AP. discriminate AP.
      - unfold apply_transaction, apply_to_roots, colls_defined in AP. cbn in AP. rewrite X in AP. destruct (p ActUpdate _ _); discriminate AP.
      - inversion X as [|? ? y G NE| | | | |]; subst. destruct (C23_digest E s1 _ _ _ EO R1 G) as [HI _]. exact HI. }
    rewrite HID in LD. pose proof (load_found _ _ _ _ _ _ _ _ EO R2 LD) as G3.
    assert (HD : h_id (d_header d') = h_id (d_header d)).
    { inversion LD as [i a b O' X Y Z W| |]; subst. unfold get_doc in W. destruct (p ActGet _ _); [|discriminate]. injection W as W.
      destruct (C23_digest E s3 _ _ _ EO R3 W) as [HI _]. exact HI. }
    destruct (IH R3 G3) as (LEN & (l0 & t & EQ & FA) & NTH). split; [cbn; lia|]. split.
    + exists (mk_sent s1 (mk_op (vw_coll v) (Update (d_header d) (f n (d_contents d)))) s2 (Fail (DocumentConflict c h)) :: l0), t.
      split; [rewrite EQ; reflexivity|]. constructor; [|exact FA]. split; [exact S2|]. exists c, h. reflexivity.
    + intros [|k] x N; cbn [nth_error] in N.
      * injection N as <-. exists d, s. rewrite Nat.add_0_r. cbn [before op after answer]. auto.
      * destruct (NTH k x N) as (y & z & Z1 & Z2 & Z3 & Z4). exists y, z. rewrite HD in Z3. rewrite <- plus_n_Sm. auto.
Qed.
Theorem C71_writes : forall E pv p v nat_id ins upd limit r s l s' o, env_ok E -> reach E s ->
  entry E pv p v nat_id ins upd limit r s l s' o ->
  l = [] \/
  (exists x t, ins = Some x /\ l = [t] /\ op t = mk_op (vw_coll v) (Insert (nat_id x) x) /\
     apply_transaction E p (before t) [op t] = (after t, answer t)) \/
  (exists f id l0 last, upd = Some f /\ (length l <= S limit)%nat /\ l = l0 ++ [last] /\ Forall refused_conflict l0 /\
     forall k t, nth_error l k = Some t -> exists x y, reach E y /\ others E y (before t) /\ doc_at y (vw_coll v) id = Some x /\
       op t = mk_op (vw_coll v) (Update (d_header x) (f k (d_contents x))) /\
       apply_transaction E p (before t) [op t] = (after t, answer t)).
Proof.
  intros E pv p v nat_id ins upd limit r s l s' o EO R X. destruct X as [s s1 o L N|s s1 d L U|s s1 d f l s' o L U A|s s1 L N|s s1 x s2 s3 o L N O AP]; auto.
  - right. right. pose proof (load_found _ _ _ _ _ _ _ _ EO R L) as G.
    destruct (attempts_log E pv p v f limit 0 d s1 l s' o EO (others_reach _ _ _ (load_others _ _ _ _ _ _ _ _ L) R) G A) as (LEN & (l0 & t & EQ & FA) & NTH).
    exists f, (h_id (d_header d)), l0, t. auto.
  - right. left. exists x, (mk_sent s2 (mk_op (vw_coll v) (Insert (nat_id x) x)) s3 o). auto.
Qed.

(* A document is returned: it is the one stored. Without a write it was loaded (C71_load
   says what that is); after an insert it is the new document; after an update the
   callback was applied to the contents the document had at the moment of the update
   (or a collision of the digest is exhibited). *)
Theorem C71_returned : forall E pv p v nat_id ins upd limit r s l s' d, env_ok E -> reach E s ->
  entry E pv p v nat_id ins upd limit r s l s' (Done (Some d)) ->
  (l = [] /\ upd = None /\ load E pv p v r s s' (Done (Some d)) /\ doc_at s' (vw_coll v) (h_id (d_header d)) = Some d) \/
  (exists x t s1, ins = Some x /\ l = [t] /\ load E pv p v r s s1 (Done None) /\ others E s1 (before t) /\ s' = after t /\
     doc_at (before t) (vw_coll v) (h_id (d_header d)) = None /\ doc_at s' (vw_coll v) (h_id (d_header d)) = Some d /\
     d_contents d = x /\ r_id (rev_of d) = 0 /\ (nat_id x = None \/ nat_id x = Some (h_id (d_header d)))) \/
  collision (ev_hash E) \/
  (exists f l0 t old, upd = Some f /\ l = l0 ++ [t] /\ s' = after t /\ h_id (d_header d) = h_id (d_header old) /\
     doc_at (before t) (vw_coll v) (h_id (d_header d)) = Some old /\ doc_at s' (vw_coll v) (h_id (d_header d)) = Some d /\
     d_contents d = f (length l0) (d_contents old)).
Proof.
  intros E pv p v nat_id ins upd limit r s l s' d EO R X. remember (Done (Some d)) as o eqn:OO.
  destruct X as [s s1 o L N|s s1 d0 L U|s s1 d0 f l s' o L U A|s s1 L N|s s1 x s2 s3 o L N O AP].
  - exfalso. exact (N _ OO).
  - injection OO as ->. left. split; [reflexivity|]. split; [exact U|]. split; [exact L|]. apply (load_found E pv p v r s s1 d EO R L).
  - right. right. pose proof (load_found _ _ _ _ _ _ _ _ EO R L) as G. pose proof (others_reach _ _ _ (load_others _ _ _ _ _ _ _ _ L) R) as R1.
    assert (GEN : collision (ev_hash E) \/ (exists l0 t old, l = l0 ++ [t] /\ s' = after t /\ h_id (d_header d) = h_id (d_header old) /\
       doc_at (before t) (vw_coll v) (h_id (d_header d)) = Some old /\ doc_at s' (vw_coll v) (h_id (d_header d)) = Some d /\
       d_contents d = f (0 + length l0)%nat (d_contents old))).
    2: { destruct GEN as [C|(l0 & t & old & Z)]; [left; exact C|right]. exists f, l0, t, old. auto. }
    clear L U R s r ins upd nat_id. revert A R1 G OO. generalize 0%nat as n0. generalize s1 as s. clear s1. intros s n0 A.
    induction A as [limit n d1 s s1 s2 o O AP C|n d1 s s1 s2 c h O AP|limit n d1 s s1 s2 c h s3 o O AP LD ND|limit n d1 s s1 s2 c h s3 d' l s' o O AP LD A IH]; intros R G OO.
    + pose proof (others_reach _ _ _ O R) as R1. destruct o as [rs|e|]; [|discriminate|discriminate].
      destruct (C21_success _ _ _ _ _ _ _ EO R1 AP) as (m & y & -> & DO & SM).
      destruct (C23_digest E s _ _ _ EO R G) as [_ SH].
      assert (EX : exists old, docs_of s1 (vw_coll v) (h_id (d_header d1)) = Some old /\ rev_of old = h_rev (d_header d1)) by (inversion DO; subst; eauto).
      destruct EX as (old & GO & RV). destruct (C23_digest E s1 _ _ _ EO R1 GO) as [HI SO].
      destruct (bytes_dec (d_contents old) (d_contents d1)) as [CE|CE].
      2: { left. exists (d_contents old), (d_contents d1). split; [exact CE|]. unfold rev_of in *. congruence. }
      inversion DO as [|? w ? GW RW HN| ? w ? GW RW HS| | | | | |]; subst; cbn [stored] in OO; injection OO as <-; cbn [d_header d_contents h_id] in *.
      * right. exists [], (mk_sent s1 (mk_op (vw_coll v) (Update (d_header d1) (f n (d_contents d1)))) s2 (Done [RUpdated (vw_coll v) h'])), old.
        split; [reflexivity|]. split; [reflexivity|]. split; [symmetry; exact HI|]. split; [exact GO|].
        split; [|rewrite Nat.add_0_r, CE; reflexivity]. cbn [after]. change (doc_at s2) with (docs_of s2). rewrite <- SM. apply put_same.
      * rewrite GO in GW. injection GW as <-.
        destruct (bytes_dec (d_contents old) (f n (d_contents old))) as [FE|FE].
        2: { left. exists (d_contents old), (f n (d_contents old)). split; [exact FE|]. rewrite CE in *. unfold rev_of in *. congruence. }
        right. exists [], (mk_sent s1 (mk_op (vw_coll v) (Update (d_header d1) (f n (d_contents d1)))) s2 (Done [RUpdated (vw_coll v) (d_header old)])), old.
        split; [reflexivity|]. split; [reflexivity|]. split; [reflexivity|]. rewrite HI. split; [exact GO|].
        split; [|rewrite Nat.add_0_r, CE; reflexivity]. cbn [after]. change (doc_at s2) with (docs_of s2). rewrite <- SM. rewrite GO. f_equal.
        rewrite <- CE, <- FE. destruct old; reflexivity.
    + discriminate.
    + exfalso. exact (ND _ OO).
    + pose proof (others_reach _ _ _ O R) as R1.
      assert (S2 : s2 = s1). { destruct (apply_cases _ _ _ _ _ _ AP) as [(rs & ? & ? & ? & X & _)|[X _]]; [discriminate X|exact X]. }
      assert (R2 : reach E s2) by (rewrite S2; exact R1).
      pose proof (others_reach _ _ _ (load_others _ _ _ _ _ _ _ _ LD) R2) as R3.
      destruct (IH R3 (load_found _ _ _ _ _ _ _ _ EO R2 LD) OO) as [C|(l0 & t & old & EQ & Z)]; [left; exact C|right].
      exists (mk_sent s1 (mk_op (vw_coll v) (Update (d_header d1) (f n (d_contents d1)))) s2 (Fail (DocumentConflict c h)) :: l0), t, old.
      rewrite EQ. split; [reflexivity|]. cbn [length]. rewrite <- plus_n_Sm. exact Z.
  - discriminate.
  - right. left. exists x, (mk_sent s2 (mk_op (vw_coll v) (Insert (nat_id x) x)) s3 o), s1.
    pose proof (others_reach _ _ _ O (others_reach _ _ _ (load_others _ _ _ _ _ _ _ _ L) R)) as R2.
    destruct o as [rs|e|]; [|discriminate|discriminate].
    destruct (C21_success _ _ _ _ _ _ _ EO R2 AP) as (m & y & -> & DO & SM).
    inversion DO as [oid id ct OI NW| | | | | | | |]; subst. cbn [stored] in OO. injection OO as <-. cbn [d_header d_contents h_id before after].
    split; [reflexivity|]. split; [reflexivity|]. split; [exact L|]. split; [exact O|]. split; [reflexivity|]. split; [exact NW|].
    split; [change (doc_at s3) with (docs_of s3); rewrite <- SM; apply put_same|]. split; [reflexivity|]. split; [reflexivity|].
    destruct OI as [OI|OI]; auto.
Qed.

(* None is returned only if there is no insert callback and nothing was found, or if the
   document was deleted by another client after a conflict *)
Theorem C71_none : forall E pv p v nat_id ins upd limit r s l s', env_ok E -> reach E s ->
  entry E pv p v nat_id ins upd limit r s l s' (Done None) ->
  (l = [] /\ ins = None /\ load E pv p v r s s' (Done None)) \/
  (exists f id l0 t h c, upd = Some f /\ l = l0 ++ [t] /\ op t = mk_op (vw_coll v) (Update h c) /\ h_id h = id /\
     refused_conflict t /\ (length l <= limit)%nat /\ doc_at s' (vw_coll v) id = None).
Proof.
  intros E pv p v nat_id ins upd limit r s l s' EO R X. remember (Done None) as o eqn:OO.
  destruct X as [s s1 o L N|s s1 d0 L U|s s1 d0 f l s' o L U A|s s1 L N|s s1 x s2 s3 o L N O AP].
  - exfalso. exact (N _ OO).
  - discriminate.
  - right. pose proof (load_found _ _ _ _ _ _ _ _ EO R L) as G. pose proof (others_reach _ _ _ (load_others _ _ _ _ _ _ _ _ L) R) as R1.
    cut (exists id l0 t h c, l = l0 ++ [t] /\ op t = mk_op (vw_coll v) (Update h c) /\ h_id h = id /\ refused_conflict t /\ (length l <= limit)%nat /\ doc_at s' (vw_coll v) id = None).
    { intros (id & l0 & t & h & c & Z). exists f, id, l0, t, h, c. auto. }
    clear L U R s r ins upd nat_id. revert R1 OO. revert A. generalize 0%nat as n0. clear G. generalize s1 as s. clear s1. intros s n0 A.
    induction A as [limit n d1 s s1 s2 o O AP C|n d1 s s1 s2 c h O AP|limit n d1 s s1 s2 c h s3 o O AP LD ND|limit n d1 s s1 s2 c h s3 d' l s' o O AP LD A IH]; intros R OO.
    + destruct o as [[|[]]|e|]; discriminate.
    + discriminate.
    + subst o. pose proof (others_reach _ _ _ O R) as R1.
      assert (S2 : s2 = s1). { destruct (apply_cases _ _ _ _ _ _ AP) as [(rs & ? & ? & ? & X & _)|[X _]]; [discriminate X|exact X]. }
      exists (h_id (d_header d1)), [], (mk_sent s1 (mk_op (vw_coll v) (Update (d_header d1) (f n (d_contents d1)))) s2 (Fail (DocumentConflict c h))), (d_header d1), (f n (d_contents d1)).
      split; [reflexivity|]. split; [reflexivity|]. split; [reflexivity|]. split; [split; [exact S2|exists c, h; reflexivity]|]. split; [cbn; lia|].
      assert (HID : h_id h = h_id (d_header d1)).
      { destruct (C21_fails_only_if_refused E p s1 _ _ (DocumentConflict c h) ltac:(rewrite <- S2 at 2; exact AP)) as [X|[X|[X|[[x X]|[x X]]]]]; try discriminate X.
        - unfold apply_transaction in AP. cbn [forallb] in AP. rewrite X in AP. discriminate AP.
        - unfold apply_transaction, apply_to_roots, colls_defined in AP. cbn in AP. rewrite X in AP. destruct (p ActUpdate _ _); discriminate AP.
        - inversion X as [|? ? y G NE| | | | |]; subst. destruct (C23_digest E s1 _ _ _ EO R1 G) as [HI _]. exact HI. }
      inversion LD as [i a b O' X Y Z W| |]; subst. unfold get_doc in W. destruct (p ActGet _ _); [|discriminate]. injection W as W. rewrite <- HID. exact W.
    + pose proof (others_reach _ _ _ O R) as R1.
      assert (S2 : s2 = s1). { destruct (apply_cases _ _ _ _ _ _ AP) as [(rs & ? & ? & ? & X & _)|[X _]]; [discriminate X|exact X]. }
      assert (R2 : reach E s2) by (rewrite S2; exact R1).
      pose proof (others_reach _ _ _ (load_others _ _ _ _ _ _ _ _ LD) R2) as R3.
      destruct (IH R3 OO) as (id & l0 & t & h0 & c0 & EQ & Z1 & Z2 & Z3 & Z4 & Z5).
      exists id, (mk_sent s1 (mk_op (vw_coll v) (Update (d_header d1) (f n (d_contents d1)))) s2 (Fail (DocumentConflict c h)) :: l0), t, h0, c0.
      rewrite EQ in *. split; [reflexivity|]. split; [exact Z1|]. split; [exact Z2|]. split; [exact Z3|]. split; [cbn [app length] in *; lia|exact Z5].
  - left. auto.
  - destruct o as [[|[]]|e|]; discriminate.
Qed.

(* A failed entry changed nothing, and a conflict is reported only after limit + 1
   conflicting updates (or by an insert under an id that is taken) *)
Theorem C71_failed : forall E pv p v nat_id ins upd limit r s l s' o, env_ok E -> reach E s ->
  entry E pv p v nat_id ins upd limit r s l s' o -> (forall x, o <> Done x) ->
  Forall (fun t => after t = before t) l /\
  (forall c h, o = Fail (DocumentConflict c h) ->
     (exists f, upd = Some f /\ length l = S limit /\ Forall refused_conflict l) \/ (exists x, ins = Some x /\ length l = 1%nat)).
Proof.
  intros E pv p v nat_id ins upd limit r s l s' o EO R X N. destruct X as [s s1 o L N1|s s1 d0 L U|s s1 d0 f l s' o L U A|s s1 L N1|s s1 x s2 s3 o L N1 O AP].
  - split; [constructor|]. intros c h ->. exfalso. inversion L as [i a b O X Y Z W|n a b e O Q|n a b ms c0 O Q O2 X Y Z W]; subst.
    + unfold get_doc in W. destruct (p ActGet _ _); discriminate W.
    + unfold query in Q. destruct (pv VQuery (vw_name v)); discriminate Q.
    + unfold first_doc, get_multiple in W. destruct (forallb _ _); discriminate W.
  - exfalso. exact (N _ eq_refl).
  - assert (NP : forall s a ops z, apply_transaction E p s ops = (a, z) -> (forall rs, z <> Done rs) -> a = s).
    { intros a b ops z AP NZ. destruct (apply_cases _ _ _ _ _ _ AP) as [(rs & ? & ? & ? & X & _)|[X _]]; [exfalso; exact (NZ _ X)|exact X]. }
    assert (SD : forall E0 s1 c z s2 h0 x, apply_transaction E0 p s1 [mk_op c (Update h0 x)] = (s2, Done z) -> env_ok E0 -> reach E0 s1 -> exists y, stored x (Done z) = Done (Some y)).
    { intros E0 a c z b h0 x AP EO0 R0. destruct (C21_success _ _ _ _ _ _ _ EO0 R0 AP) as (m & y & -> & DO & _). inversion DO; subst; cbn; eauto. }
    cut (Forall (fun t => after t = before t) l /\ (forall c h, o = Fail (DocumentConflict c h) -> length l = S limit /\ Forall refused_conflict l)).
    { intros [A1 A2]. split; [exact A1|]. intros c h Y. left. exists f. split; [exact U|]. apply (A2 c h Y). }
    pose proof (others_reach _ _ _ (load_others _ _ _ _ _ _ _ _ L) R) as R1. clear L U R s r ins upd nat_id. revert N R1. revert A. generalize 0%nat as n0. generalize s1 as s. clear s1. intros s n0 A.
    induction A as [limit n d1 s s1 s2 o O AP C|n d1 s s1 s2 c h O AP|limit n d1 s s1 s2 c h s3 o O AP LD ND|limit n d1 s s1 s2 c h s3 d' l s' o O AP LD A IH]; intros N R; pose proof (others_reach _ _ _ O R) as R1.
    + assert (NZ : forall rs, o <> Done rs).
      { intros rs ->. destruct (SD _ _ _ _ _ _ _ AP EO R1) as (y & Y). exact (N _ Y). }
      split; [constructor; [cbn; apply (NP _ _ _ _ AP NZ)|constructor]|]. intros c h SE. exfalso. destruct o as [rs|e|]; [exact (NZ _ eq_refl)| |discriminate SE].
      cbn in SE. injection SE as ->. discriminate C.
    + assert (S2 : s2 = s1) by (apply (NP _ _ _ _ AP); discriminate). split; [constructor; [exact S2|constructor]|]. intros c' h' _. split; [reflexivity|].
      constructor; [|constructor]. split; [exact S2|]. exists c, h. reflexivity.
    + assert (S2 : s2 = s1) by (apply (NP _ _ _ _ AP); discriminate). split; [constructor; [exact S2|constructor]|]. intros c' h' ->. exfalso.
      inversion LD as [i a b O' X Y Z W| |]; subst. unfold get_doc in W. destruct (p ActGet _ _); discriminate W.
    + assert (S2 : s2 = s1) by (apply (NP _ _ _ _ AP); discriminate).
      assert (R2 : reach E s2) by (rewrite S2; exact R1).
      pose proof (others_reach _ _ _ (load_others _ _ _ _ _ _ _ _ LD) R2) as R3.
      destruct (IH N R3) as [I1 I2]. split; [constructor; [exact S2|exact I1]|]. intros c' h' Y. destruct (I2 c' h' Y) as [LEN FA]. split; [cbn; lia|].
      constructor; [|exact FA]. split; [exact S2|]. exists c, h. reflexivity.
  - exfalso. exact (N _ eq_refl).
  - split.
    + constructor; [|constructor]. cbn. destruct (apply_cases _ _ _ _ _ _ AP) as [(rs & ? & ? & ? & -> & _)|[X _]]; [|exact X].
      exfalso. destruct (C21_success _ _ _ _ _ _ _ EO (others_reach _ _ _ O (others_reach _ _ _ (load_others _ _ _ _ _ _ _ _ L) R)) AP) as (m & y & -> & DO & _).
      inversion DO; subst; cbn in N; exact (N _ eq_refl).
    + intros c h _. right. exists x. auto.
Qed.

(* the name view is unique: an entry that would create a second document of a name fails
   and changes nothing *)
Theorem C71_no_second_document : forall E pv p v nat_id ins upd limit r s l s' o t x n i, env_ok E -> reach E s -> In v (ev_views E) ->
  vd_policy (vw_def v) = Unique ->
  entry E pv p v nat_id ins upd limit r s l s' o -> In t l -> op t = mk_op (vw_coll v) (Insert (nat_id x) x) ->
  (forall id, ~ pending (before t) v id) -> named v (before t) n i -> (forall h, exists y, emits v (mk_doc h x) n y) ->
  after t = before t /\ forall d, o <> Done d.
Proof.
  intros E pv p v nat_id ins upd limit r s l s' o t x n i EO R I U X T OP P (d & y & G & EM) NM.
  assert (Z : exists s2 s3 z, t = mk_sent s2 (mk_op (vw_coll v) (Insert (nat_id x) x)) s3 z /\ reach E s2 /\
     apply_transaction E p s2 [mk_op (vw_coll v) (Insert (nat_id x) x)] = (s3, z) /\ o = stored x z).
  { destruct X as [s s1 o L N1|s s1 d0 L U1|s s1 d0 f l s' o L U1 A|s s1 L N1|s s1 x' s2 s3 o L N1 O AP'].
    - destruct T.
    - destruct T.
    - exfalso. pose proof (load_found _ _ _ _ _ _ _ _ EO R L) as G1.
      destruct (attempts_log E pv p v f limit 0 d0 s1 l s' o EO (others_reach _ _ _ (load_others _ _ _ _ _ _ _ _ L) R) G1 A) as (_ & _ & NTH).
      apply In_nth_error in T. destruct T as [k T]. destruct (NTH k t T) as (? & ? & _ & _ & _ & OP' & _). rewrite OP' in OP. discriminate OP.
    - destruct T.
    - destruct T as [<-|[]]. cbn [op] in OP. injection OP as OA OB. subst x'. exists s2, s3, o. split; [reflexivity|]. split; [|split; [exact AP'|reflexivity]].
      exact (others_reach _ _ _ O (others_reach _ _ _ (load_others _ _ _ _ _ _ _ _ L) R)). }
  destruct Z as (s2 & s3 & z & -> & R2 & AP & ->). cbn [before after op] in *.
  assert (NZ : forall rs, z <> Done rs).
  { intros rs ->. destruct (C21_success _ _ _ _ _ _ _ EO R2 AP) as (m & w & -> & DO & SM).
    inversion DO as [oid id ct OI NW| | | | | | | |]; subst.
    assert (R3 : reach E s3). { change s3 with (fst (s3, @Done (list opres) terr [RUpdated (vw_coll v) (mk_header id (first_rev (ev_hash E) x))])). rewrite <- AP. apply reach_tx, R2. }
    assert (NE : i <> id) by (intros ->; unfold docs_of in NW; congruence).
    destruct (NM (mk_header id (first_rev (ev_hash E) x))) as (y' & EM').
    apply NE. apply (C29_no_two_documents E s3 v i d y id (mk_doc (mk_header id (first_rev (ev_hash E) x)) x) y' n EO R3 I U).
    - intros j. rewrite (apply_eager_pending E p s2 _ s3 _ v EO (reach_ok _ _ EO R2) AP I); [apply P|rewrite U; reflexivity].
    - change (doc_at s3) with (docs_of s3). rewrite <- SM. rewrite put_get. apply bytes_eqb_neq in NE. rewrite NE, andb_false_r. exact G.
    - exact EM.
    - change (doc_at s3) with (docs_of s3). rewrite <- SM. apply put_same.
    - exact EM'. }
  split.
  - destruct (apply_cases _ _ _ _ _ _ AP) as [(rs & ? & ? & ? & Y & _)|[Y _]]; [exfalso; exact (NZ _ Y)|exact Y].
  - intros d0. destruct z as [rs|e|]; [exfalso; exact (NZ _ eq_refl)|discriminate|discriminate].
Qed.

(* delete_by_name: the view is read at s1, the documents are deleted at s2. On success
   the documents listed under the name at s1, and no other, are gone; each was at s2
   still in the version the view listed. The answer says whether there was one. On
   failure nothing changed. *)
Lemma deletes_headers H c hs : forall m m' rs, does_all H m (deletes c hs) m' rs ->
  forall h, In h hs -> exists d, m c (h_id h) = Some d /\ d_header d = h.
Proof.
  induction hs as [|h hs IH]; intros m m' rs D x X; cbn [deletes map] in D; [destruct X|].
  inversion D as [|? ? m1 m1' r ops m2 rs0 D1 SM D2]; subst. cbn [op_coll op_cmd] in *.
  inversion D1 as [| | | | | |? d0 G0 E0 Q1 Q2 Q3| |]; subst. destruct X as [<-|X]; [eauto|].
  destruct (IH _ _ _ D2 x X) as (d & G & HD). exists d. split; [|exact HD]. rewrite <- SM in G. unfold put in G.
  destruct (bytes_eqb c c && bytes_eqb (h_id x) (h_id (d_header d0))); [discriminate G|exact G].
Qed.
Theorem C71_delete_by_name : forall E p v n s s1 s2 s3 o, env_ok E -> reach E s -> In v (ev_views E) ->
  delete_by_name E p v n s s1 s2 s3 o -> others E s s1 /\ others E s1 s2 /\
  match o with
  | Done b => exists hs : list header,
      (forall i, ~ pending s1 v i -> (In i (map h_id hs) <-> named v s1 n i)) /\
      (forall h, In h hs -> exists d, doc_at s2 (vw_coll v) (h_id h) = Some d /\ d_header d = h /\
         (~ pending s1 v (h_id h) -> exists d1, doc_at s1 (vw_coll v) (h_id h) = Some d1 /\ d_header d1 = h)) /\
      (b = true <-> hs <> []) /\
      forall c i, doc_at s3 c i = if bytes_eqb c (vw_coll v) && mem i (map h_id hs) then None else doc_at s2 c i
  | _ => s3 = s2
  end.
Proof.
  intros E p v n s s1 s2 s3 o EO R I X. destruct X as [s s1 s2 s3 o O1 O2 AP]. split; [exact O1|]. split; [exact O2|].
  pose proof (others_reach _ _ _ O1 R) as R1. pose proof (others_reach _ _ _ O2 R1) as R2.
  destruct o as [rs|e|]; [|destruct (apply_cases _ _ _ _ _ _ AP) as [(? & ? & ? & ? & Y & _)|[Y _]]; [discriminate Y|exact Y]..].
  destruct (query anyone s1 v (Some (QMatches n)) true None) as [ms|e|] eqn:Q; [|discriminate Q|discriminate Q].
  rewrite (delete_ops_spec s1 v _ ms Q) in AP. exists (map em_src ms).
  destruct (C19_all_or_nothing E p s2 _ s3 _ EO R2 AP) as [(rs' & Y & D & _)|[Y _]]; [|exfalso; exact (Y _ eq_refl)]. injection Y as <-.
  pose proof (deletes_headers _ _ _ _ _ _ D) as DH. apply deletes_effect in D. destruct D as [L D].
  rewrite map_map. split; [|split; [|split]].
  - intros i P. change (map (fun x => h_id (em_src x)) ms) with (sources ms). apply (sources_named E anyone s1 v n ms i EO R1 I Q P).
  - intros h H. destruct (DH h H) as (d & G & HD). exists d. split; [exact G|]. split; [exact HD|]. intros P.
    apply in_map_iff in H. destruct H as ([k h0 val] & EQ & M). cbn in EQ. subst h0.
    pose proof (C31_filter E s1 v (Some (QMatches n)) ms _ EO R1 I (ltac:(cbn; auto)) Q eq_refl) as F. rewrite F in M. apply filter_In in M. destruct M as [M _].
    apply (C28_document E s1 v _ k h val EO R1 I eq_refl P) in M. destruct M as (d1 & l & G1 & H1 & _). eauto.
  - rewrite L, map_length. destruct ms as [|m ms]; [cbn; split; [discriminate|intros H; destruct H; reflexivity]|]. split; [discriminate|]. intros _. apply N.ltb_lt. cbn [length]. lia.
  - intros c i. change (doc_at s3) with (docs_of s3). rewrite D. rewrite map_map. reflexivity.
Qed.

(* Refuted: what update_with changes need not have the name the entry was asked for. The
   view and the document are read one after the other; another client's renaming in
   between goes unnoticed, and so does one that causes a conflict (the retry reloads by
   id). *)
Theorem C71_still_named_refuted : exists E pv p v nat_id f limit n s l s' d t, env_ok E /\ reach E s /\ In v (ev_views E) /\
  vd_policy (vw_def v) = Unique /\ (forall i, ~ pending s v i) /\
  entry E pv p v nat_id None (Some f) limit (RName n) s l s' (Done (Some d)) /\
  l = [t] /\ named v s n (h_id (d_header d)) /\ ~ named v (before t) n (h_id (d_header d)) /\ ~ named v (after t) n (h_id (d_header d)) /\
  doc_at (after t) (vw_coll v) (h_id (d_header d)) <> doc_at (before t) (vw_coll v) (h_id (d_header d)).
Proof.
  pose (s1 := fst (apply_transaction ex_env everyone ex_s1 [mk_op [1] (Update ex_h5 [12])])).
  pose (h1 := mk_header [5] (mk_rev 1 [9; 12])). pose (h2 := mk_header [5] (mk_rev 2 [9; 12; 77])).
  pose (s2 := fst (apply_transaction ex_env everyone s1 [mk_op [1] (Update h1 [12; 77])])).
  exists ex_env, anyone, everyone, ex_unique, (fun _ => None), ex_append, 0%nat, [10], ex_s1,
    [mk_sent s1 (mk_op [1] (Update h1 [12; 77])) s2 (Done [RUpdated [1] h2])], s2, (mk_doc h2 [12; 77]),
    (mk_sent s1 (mk_op [1] (Update h1 [12; 77])) s2 (Done [RUpdated [1] h2])).
  split; [apply ex_env_ok|]. split; [apply ex_reach1|]. split; [right; left; reflexivity|]. split; [reflexivity|]. split; [exact (proj1 C29_ex)|].
  split.
  { eapply (entry_update ex_env anyone everyone ex_unique (fun _ => None) None (Some ex_append) 0 (RName [10]) ex_s1 s1 (mk_doc h1 [12]) ex_append); [|reflexivity|].
    - assert (LD : load ex_env anyone everyone ex_unique (RName [10]) ex_s1 s1 (first_doc (get_multiple everyone s1 (vw_coll ex_unique) (sources [mk_em [10] ex_h5 []])))).
      { apply (load_name ex_env anyone everyone ex_unique [10] ex_s1 ex_s1); [apply others_none|vm_compute; reflexivity|eapply others_tx, others_none]. }
      assert (EQ : first_doc (get_multiple everyone s1 (vw_coll ex_unique) (sources [mk_em [10] ex_h5 []])) = Done (Some (mk_doc h1 [12]))) by (vm_compute; reflexivity).
      rewrite EQ in LD. exact LD.
    - apply (att_end ex_env anyone everyone ex_unique ex_append 0 0 (mk_doc h1 [12]) s1 s1 s2 (Done [RUpdated [1] h2])); [apply others_none|vm_compute; reflexivity|reflexivity]. }
  split; [reflexivity|]. split.
  { exists (mk_doc ex_h5 [10; 11]), []. split; [vm_compute; reflexivity|]. eexists. split; [vm_compute; reflexivity|left; reflexivity]. }
  split.
  { intros (d & x & G & ls & M & IN). vm_compute in G. injection G as <-. vm_compute in M. injection M as <-. destruct IN as [IN|[]]. discriminate IN. }
  split.
  { intros (d & x & G & ls & M & IN). vm_compute in G. injection G as <-. vm_compute in M. injection M as <-. destruct IN as [IN|[]]. discriminate IN. }
  vm_compute. discriminate.
Qed.

(* an entry that retries once, and one that inserts *)
Example C71_ex_retry : exists l s' d, entry ex_env anyone everyone ex_unique (fun _ => None) None (Some ex_append) 1 (RName [10]) ex_s1 l s' (Done (Some d)) /\
  length l = 2%nat /\ d = mk_doc (mk_header [5] (mk_rev 2 [9; 10; 77])) [10; 77].
Proof.
  pose (s1 := fst (apply_transaction ex_env everyone ex_s1 [mk_op [1] (Update ex_h5 [10])])).
  pose (h1 := mk_header [5] (mk_rev 1 [9; 10])). pose (h2 := mk_header [5] (mk_rev 2 [9; 10; 77])).
  pose (s2 := fst (apply_transaction ex_env everyone s1 [mk_op [1] (Update h1 [10; 77])])).
  eexists. exists s2, (mk_doc h2 [10; 77]). split; [|split; [|reflexivity]].
  - eapply (entry_update ex_env anyone everyone ex_unique (fun _ => None) None (Some ex_append) 1 (RName [10]) ex_s1 ex_s1 (mk_doc ex_h5 [10; 11]) ex_append); [|reflexivity|].
    + assert (LD : load ex_env anyone everyone ex_unique (RName [10]) ex_s1 ex_s1 (first_doc (get_multiple everyone ex_s1 (vw_coll ex_unique) (sources [mk_em [10] ex_h5 []])))).
      { apply (load_name ex_env anyone everyone ex_unique [10] ex_s1 ex_s1); [apply others_none|vm_compute; reflexivity|apply others_none]. }
      assert (EQ : first_doc (get_multiple everyone ex_s1 (vw_coll ex_unique) (sources [mk_em [10] ex_h5 []])) = Done (Some (mk_doc ex_h5 [10; 11]))) by (vm_compute; reflexivity).
      rewrite EQ in LD. exact LD.
    + apply (att_retry ex_env anyone everyone ex_unique ex_append 0 0 (mk_doc ex_h5 [10; 11]) ex_s1 s1 s1 [1] h1 s1 (mk_doc h1 [10])).
      * eapply others_tx, others_none.
      * vm_compute. reflexivity.
      * assert (LD : load ex_env anyone everyone ex_unique (RId [5]) s1 s1 (get_doc everyone s1 [1] [5])) by (apply (load_id ex_env anyone everyone ex_unique); apply others_none).
        assert (EQ : get_doc everyone s1 [1] [5] = Done (Some (mk_doc h1 [10]))) by (vm_compute; reflexivity). rewrite EQ in LD. exact LD.
      * apply (att_end ex_env anyone everyone ex_unique ex_append 0 1 (mk_doc h1 [10]) s1 s1 s2 (Done [RUpdated [1] h2])); [apply others_none|vm_compute; reflexivity|reflexivity].
  - reflexivity.
Qed.
Example C71_ex_insert : exists l s' d, entry ex_env anyone everyone ex_unique (fun _ => None) (Some [30]) (Some ex_append) 1 (RName [30]) ex_s1 l s' (Done (Some d)) /\
  length l = 1%nat /\ d = mk_doc (mk_header [7] (mk_rev 0 [9; 30])) [30].
Proof.
  eexists. eexists. exists (mk_doc (mk_header [7] (mk_rev 0 [9; 30])) [30]). split; [|split; [|reflexivity]].
  - eapply (entry_insert ex_env anyone everyone ex_unique (fun _ => None) (Some [30]) (Some ex_append) 1 (RName [30]) ex_s1 ex_s1 [30] ex_s1 _ (Done [RUpdated [1] (mk_header [7] (mk_rev 0 [9; 30]))])).
    + assert (LD : load ex_env anyone everyone ex_unique (RName [30]) ex_s1 ex_s1 (first_doc (get_multiple everyone ex_s1 (vw_coll ex_unique) (sources [])))).
      { apply (load_name ex_env anyone everyone ex_unique [30] ex_s1 ex_s1 []); [apply others_none|vm_compute; reflexivity|apply others_none]. }
      assert (EQ : first_doc (get_multiple everyone ex_s1 (vw_coll ex_unique) (sources [])) = Done None) by (vm_compute; reflexivity).
      rewrite EQ in LD. exact LD.
    + reflexivity.
    + apply others_none.
    + vm_compute. reflexivity.
  - reflexivity.
Qed.
Example C71_ex_second : (forall id, ~ pending ex_s1 ex_unique id) /\ named ex_unique ex_s1 [10] [5] /\ (forall h, exists y, emits ex_unique (mk_doc h [10]) [10] y).
Proof.
  split; [exact (proj1 C29_ex)|]. split.
  - exists (mk_doc ex_h5 [10; 11]), []. split; [vm_compute; reflexivity|]. eexists. split; [vm_compute; reflexivity|left; reflexivity].
  - intros h. exists []. eexists. split; [reflexivity|left; reflexivity].
Qed.
Example C71_ex_delete : exists s3, delete_by_name ex_env everyone ex_unique [10] ex_s1 ex_s1 ex_s1 s3 (Done true) /\ doc_at s3 [1] [5] = None.
Proof.
  pose (x := apply_transaction ex_env everyone ex_s1 (delete_ops ex_s1 ex_unique (Some (QMatches [10])))).
  exists (fst x). split; [|vm_compute; reflexivity].
  assert (A : x = (fst x, Done [RDeleted [1] [5]])) by (vm_compute; reflexivity).
  exact (delete_at ex_env everyone ex_unique [10] ex_s1 ex_s1 ex_s1 (fst x) (Done [RDeleted [1] [5]]) (others_none _ _) (others_none _ _) A).
Qed.
(* the id of a reference by name is that of a document of that name (of the one, if the
   view is unique), and none only if there is none *)
Theorem C71_reference_id : forall E pv v n s x, env_ok E -> reach E s -> In v (ev_views E) ->
  reference_id pv s v (RName n) = Done x -> (forall i, ~ pending s v i) ->
  match x with
  | Some i => named v s n i /\ (vd_policy (vw_def v) = Unique -> forall j, named v s n j -> j = i)
  | None => forall i, ~ named v s n i
  end.
Proof.
  intros E pv v n s x EO R I X P. unfold reference_id in X. destruct (query pv s v (Some (QMatches n)) true None) as [ms|e|] eqn:Q; [|discriminate X|discriminate X].
  injection X as <-. pose proof (fun i => sources_named E pv s v n ms i EO R I Q (P i)) as SN. destruct (sources ms) as [|i r]; cbn [hd_error].
  - intros i N. apply SN in N. destruct N.
  - assert (NI : named v s n i) by (apply SN; left; reflexivity). split; [exact NI|]. intros U j NJ.
    destruct NI as (d1 & y1 & G1 & E1), NJ as (d2 & y2 & G2 & E2).
    exact (C29_no_two_documents E s v j d2 y2 i d1 y1 n EO R I U P G2 E2 G1 E1).
Qed.
Example C71_ex_reference : reference_id anyone ex_s1 ex_unique (RName [10]) = Done (Some [5]) /\ reference_id anyone ex_s1 ex_unique (RName [11]) = Done None.
Proof. split; vm_compute; reflexivity. Qed.
Print Assumptions C71_reference_id.
Print Assumptions C71_load.
Print Assumptions C71_writes.
Print Assumptions C71_returned.
Print Assumptions C71_none.
Print Assumptions C71_failed.
Print Assumptions C71_no_second_document.
Print Assumptions C71_delete_by_name.
Print Assumptions C71_still_named_refuted.
