(* C24: transactions on different collections do not influence each other and commute. *)
From Verif Require Import Base Key Tree View ViewProofs ViewMap Docs DocsProofs DocsSpec DocsMore DocsHist ViewTotal Query PropDocs PropViews PropSequence.
From Coq Require Import Lia.
Local Open Scope N_scope.

(* alike (see PropSequence.v) in the collections of P *)
Definition alike_on (E : env) (P : bytes -> Prop) (w1 w2 : work) : Prop :=
  (forall c, P c -> w_docs w1 c = w_docs w2 c) /\
  forall v, In v (ev_views E) -> P (vw_coll v) ->
    (is_eager (vd_policy (vw_def v)) = true -> w_views w1 (vw_name v) = w_views w2 (vw_name v)) /\
    vs_entries (w_views w1 (vw_name v)) = vs_entries (w_views w2 (vw_name v)) /\ vs_docmap (w_views w1 (vw_name v)) = vs_docmap (w_views w2 (vw_name v)).
Lemma on_refl E P w : alike_on E P w w.
Proof. split; [reflexivity|]. auto. Qed.
Lemma on_sym E P a b : alike_on E P a b -> alike_on E P b a.
Proof. intros [A1 A2]. split; [intros x X; symmetry; apply A1, X|]. intros v I Y. destruct (A2 v I Y) as (Q & R & S). split; [intros X; symmetry; apply Q, X|]. auto. Qed.
Lemma on_trans E P a b c : alike_on E P a b -> alike_on E P b c -> alike_on E P a c.
Proof.
  intros [A1 A2] [B1 B2]. split; [intros x X; rewrite A1 by exact X; apply B1, X|]. intros v I Y. destruct (A2 v I Y) as (Q & R & S), (B2 v I Y) as (Q' & R' & S').
  split; [intros X; rewrite Q by exact X; apply Q', X|]. split; congruence.
Qed.
Lemma on_of_alike E P a b : alike E a b -> alike_on E P a b.
Proof. intros [A B]. split; auto. Qed.
Lemma on_docs E (P : bytes -> Prop) w1 w2 c t : alike_on E P w1 w2 -> alike_on E P (set_docs w1 c t) (set_docs w2 c t).
Proof. intros [A B]. split; [|exact B]. intros d X. cbn. unfold upd. destruct (bytes_eqb d c); [reflexivity|apply A, X]. Qed.
Lemma on_view E P w1 w2 n vs : alike_on E P w1 w2 -> alike_on E P (set_view w1 n vs) (set_view w2 n vs).
Proof. intros [A B]. split; [exact A|]. intros u I Y. cbn. unfold upd. destruct (bytes_eqb (vw_name u) n); [auto|apply B; assumption]. Qed.

(* an operation depends only on its own collection *)
Lemma on_eager E (P : bytes -> Prop) c id : P c -> forall views w1 w2, incl views (ev_views E) -> alike_on E P w1 w2 ->
  rel (alike_on E P) (update_eager views c id w1) (update_eager views c id w2).
Proof.
  intros PC. induction views as [|v r IH]; intros w1 w2 I A; cbn [update_eager]; [exact A|].
  assert (IR : incl r (ev_views E)) by (intros x J; apply I; right; exact J).
  destruct (bytes_eqb (vw_coll v) c) eqn:VC; cbn [andb]; [|apply IH; assumption].
  destruct (is_eager (vd_policy (vw_def v))) eqn:EA; [|apply IH; assumption].
  apply bytes_eqb_spec in VC. destruct A as [A B]. destruct (B v (I v (or_introl eq_refl))) as (X & _); [rewrite VC; exact PC|]. rewrite (A c PC), (X EA).
  destruct (map_request _ _ _ _ _) as [vs|x|]; [|reflexivity|exact Logic.I]. apply IH; [exact IR|]. apply on_view. split; assumption.
Qed.
Lemma on_finish E (P : bytes -> Prop) c id w1 w2 r : P c -> alike_on E P w1 w2 -> rel (with_res (alike_on E P)) (finish E c id w1 r) (finish E c id w2 r).
Proof.
  intros PC A. unfold finish. pose proof (on_eager E P c id PC (ev_views E) w1 w2 (incl_refl _) A) as U.
  destruct (update_eager _ c id w1), (update_eager _ c id w2); cbn in *; try contradiction; auto. split; auto.
Qed.
Lemma on_exec E (P : bytes -> Prop) o w1 w2 : P (op_coll o) -> alike_on E P w1 w2 -> rel (with_res (alike_on E P)) (exec_op E w1 o) (exec_op E w2 o).
Proof.
  intros PC A. assert (D : forall c, P c -> w_docs w1 c = w_docs w2 c) by apply A. unfold exec_op. destruct o as [c [oid ct|h ct|id ct|h|id rv]]; cbn [op_cmd op_coll] in *;
    unfold exec_insert, exec_update, exec_delete, exec_check; rewrite D by exact PC.
  - destruct oid as [i|]; [|destruct (ev_pk E c) as [t|]; [destruct (next_id t _) as [i|x|]|]]; try reflexivity; try exact Logic.I;
      (destruct (t_get i (w_docs w2 c)); [reflexivity|apply on_finish, on_docs, A; exact PC]).
  - destruct (t_get (h_id h) (w_docs w2 c)) as [old|]; [|reflexivity]. destruct (rev_eqb _ _); [|reflexivity].
    destruct (next_revision E _ ct) as [[r|]|x|]; [apply on_finish, on_docs, A; exact PC|split; [exact A|reflexivity]|reflexivity|exact Logic.I].
  - destruct (t_get id (w_docs w2 c)) as [old|]; [|apply on_finish, on_docs, A; exact PC].
    destruct (next_revision E _ ct) as [[r|]|x|]; [apply on_finish, on_docs, A; exact PC|split; [exact A|reflexivity]|reflexivity|exact Logic.I].
  - destruct (t_get (h_id h) (w_docs w2 c)) as [old|]; [|reflexivity]. destruct (header_eqb _ _); [apply on_finish, on_docs, A; exact PC|reflexivity].
  - destruct (t_get id (w_docs w2 c)) as [old|]; [|reflexivity]. destruct rv as [r|]; [destruct (rev_eqb _ _)|]; try reflexivity; split; auto.
Qed.
Lemma on_all E (P : bytes -> Prop) : forall ops w1 w2, (forall o, In o ops -> P (op_coll o)) -> alike_on E P w1 w2 ->
  rel (with_res (alike_on E P)) (exec_all E ops w1) (exec_all E ops w2).
Proof.
  induction ops as [|o r IH]; intros w1 w2 Q A; cbn [exec_all]; [split; [exact A|reflexivity]|].
  pose proof (on_exec E P o w1 w2 (Q o (or_introl eq_refl)) A) as X. destruct (exec_op E w1 o) as [[a x]|e|], (exec_op E w2 o) as [[b y]|f|]; cbn in X; try contradiction; try exact X.
  destruct X as [X Y]. cbn in X, Y. subst y. assert (QR : forall o, In o r -> P (op_coll o)) by (intros u J; apply Q; right; exact J). specialize (IH a b QR X).
  destruct (exec_all E r a) as [[a' xs]|e|], (exec_all E r b) as [[b' ys]|f|]; cbn in *; try contradiction; try exact IH.
  destruct IH as [I J]. cbn in *. split; [exact I|]. cbn. congruence.
Qed.
(* and changes nothing of the others *)
Lemma frame_eager E (P : bytes -> Prop) c id : env_ok E -> ~ P c -> forall views w w', incl views (ev_views E) -> update_eager views c id w = Done w' -> alike_on E P w w'.
Proof.
  intros EO NC. induction views as [|v r IH]; intros w w' I H; cbn [update_eager] in H; [injection H as <-; apply on_refl|].
  assert (IR : incl r (ev_views E)) by (intros x J; apply I; right; exact J).
  destruct (bytes_eqb (vw_coll v) c) eqn:VC; cbn [andb] in H; [|exact (IH _ _ IR H)].
  destruct (is_eager (vd_policy (vw_def v))) eqn:EA; [|exact (IH _ _ IR H)].
  destruct (map_request _ _ _ _ _) as [vs|x|]; [|discriminate|discriminate]. eapply on_trans; [|exact (IH _ _ IR H)].
  split; [reflexivity|]. intros u J Y. cbn. unfold upd. destruct (bytes_eqb (vw_name u) (vw_name v)) eqn:N; [|auto].
  apply bytes_eqb_spec in N, VC. exfalso. assert (u = v) by (exact (same_name E u v EO J (I v (or_introl eq_refl)) N)). subst u. rewrite VC in Y. exact (NC Y).
Qed.
Lemma frame_finish E (P : bytes -> Prop) c id w t w' r : env_ok E -> ~ P c -> finish E c id (set_docs w c t) r = Done w' -> alike_on E P w (fst w').
Proof.
  intros EO NC H. unfold finish in H. destruct (update_eager _ c id _) as [w1|x|] eqn:U; [|discriminate|discriminate]. injection H as <-.
  eapply on_trans; [|exact (frame_eager E P c id EO NC _ _ _ (incl_refl _) U)]. split; [|auto]. intros d X. cbn. unfold upd.
  destruct (bytes_eqb d c) eqn:Q; [apply bytes_eqb_spec in Q; subst d; destruct (NC X)|reflexivity].
Qed.
Lemma frame_exec E (P : bytes -> Prop) o w w' : env_ok E -> ~ P (op_coll o) -> exec_op E w o = Done w' -> alike_on E P w (fst w').
Proof.
  intros EO NC. unfold exec_op. destruct o as [c [oid ct|h ct|id ct|h|id rv]]; cbn [op_cmd op_coll] in *; unfold exec_insert, exec_update, exec_delete, exec_check.
  - destruct oid as [i|]; [|destruct (ev_pk E c) as [t|]; [destruct (next_id t _) as [i|x|]|]]; try discriminate;
      (destruct (t_get i (w_docs w c)); [discriminate|apply frame_finish; assumption]).
  - destruct (t_get (h_id h) (w_docs w c)) as [old|]; [|discriminate]. destruct (rev_eqb _ _); [|discriminate].
    destruct (next_revision E _ ct) as [[r|]|x|]; try discriminate; [apply frame_finish; assumption|intros [= <-]; apply on_refl].
  - destruct (t_get id (w_docs w c)) as [old|]; [|apply frame_finish; assumption].
    destruct (next_revision E _ ct) as [[r|]|x|]; try discriminate; [apply frame_finish; assumption|intros [= <-]; apply on_refl].
  - destruct (t_get (h_id h) (w_docs w c)) as [old|]; [|discriminate]. destruct (header_eqb _ _); [apply frame_finish; assumption|discriminate].
  - destruct (t_get id (w_docs w c)) as [old|]; [|discriminate]. destruct rv as [r|]; [destruct (rev_eqb _ _)|]; try discriminate; intros [= <-]; apply on_refl.
Qed.
Lemma frame_all E (P : bytes -> Prop) : env_ok E -> forall ops w w' rs, (forall o, In o ops -> ~ P (op_coll o)) -> exec_all E ops w = Done (w', rs) -> alike_on E P w w'.
Proof.
  intros EO. induction ops as [|o r IH]; intros w w' rs Q H; cbn [exec_all] in H; [injection H as <- _; apply on_refl|].
  destruct (exec_op E w o) as [[w1 x]|e|] eqn:X; [|discriminate|discriminate]. destruct (exec_all E r w1) as [[w2 xs]|e|] eqn:Y; [|discriminate|discriminate].
  injection H as <- _. eapply on_trans; [exact (frame_exec E P o w (w1, x) EO (Q o (or_introl eq_refl)) X)|]. cbn [fst]. refine (IH _ _ _ _ Y). intros u J. apply Q. right. exact J.
Qed.
Definition among (ops : list operation) (c : bytes) : Prop := exists o, In o ops /\ op_coll o = c.
Definition separate (a b : list operation) : Prop := forall x y, In x a -> In y b -> op_coll x <> op_coll y.

(* what a transaction answers does not depend on a transaction on other collections before it *)
Theorem C24_independent : forall E p q s a b sa ra, env_ok E -> separate a b -> N.of_nat (length a) <= 65536 -> N.of_nat (length b) <= 65536 ->
  apply_transaction E p s a = (sa, Done ra) ->
  snd (apply_transaction E q sa b) = snd (apply_transaction E q s b).
Proof.
  intros E p q s a b sa ra EO SEP LA LB H. pose proof (run_of_apply _ _ _ _ _ _ H) as (PA & CA & _).
  pose proof (apply_exec E p s a PA CA LA) as X. destruct (exec_all E a (db_work s)) as [[wa xs]|e|] eqn:XA; [|congruence|congruence].
  destruct X as (s1 & ch & X & IV). rewrite H in X. injection X as <- <-.
  destruct (forallb (op_allowed q) b) eqn:PB; [|unfold apply_transaction; rewrite PB; reflexivity].
  destruct (colls_defined E b) eqn:CB; [|unfold apply_transaction, apply_to_roots; rewrite PB, CB; reflexivity].
  pose proof (apply_exec E q s b PB CB LB) as Y. pose proof (apply_exec E q sa b PB CB LB) as Z.
  assert (F : alike_on E (among b) (db_work s) (db_work sa)).
  { eapply on_trans; [|apply on_of_alike, (invalidate_alike _ _ _ _ EO IV)]. refine (frame_all E (among b) EO a _ _ _ _ XA). intros o I (u & J & U). exact (SEP o u I J (eq_sym U)). }
  pose proof (on_all E (among b) b _ _ (fun o I => ex_intro _ o (conj I eq_refl)) F) as R.
  destruct (exec_all E b (db_work s)) as [[w1 r1]|e|], (exec_all E b (db_work sa)) as [[w2 r2]|f|]; cbn in R; try contradiction.
  - destruct R as [_ R]. cbn in R. subst r2. destruct Y as (? & ? & -> & _), Z as (? & ? & -> & _). reflexivity.
  - subst f. rewrite Y, Z. reflexivity.
  - rewrite Y, Z. reflexivity.
Qed.
(* two transactions on different collections can be done in either order *)
Theorem C24_commute : forall E p q s a b sa ra sb rb, env_ok E -> separate a b -> N.of_nat (length a) <= 65536 -> N.of_nat (length b) <= 65536 ->
  apply_transaction E p s a = (sa, Done ra) -> apply_transaction E q s b = (sb, Done rb) ->
  exists sab sba, apply_transaction E q sa b = (sab, Done rb) /\ apply_transaction E p sb a = (sba, Done ra) /\ same_data E sab sba.
Proof.
  intros E p q s a b sa ra sb rb EO SEP LA LB HA HB.
  assert (SEP2 : separate b a) by (intros x y I J U; exact (SEP y x J I (eq_sym U))).
  pose proof (C24_independent E p q s a b sa ra EO SEP LA LB HA) as IB. pose proof (C24_independent E q p s b a sb rb EO SEP2 LB LA HB) as IA.
  rewrite HB in IB. rewrite HA in IA. cbn [snd] in IA, IB.
  destruct (apply_transaction E q sa b) as [sab ob] eqn:HAB, (apply_transaction E p sb a) as [sba oa] eqn:HBA. cbn [snd] in IA, IB. subst ob oa.
  exists sab, sba. split; [reflexivity|]. split; [reflexivity|]. apply alike_data.
  assert (G : forall u z ops y r, N.of_nat (length ops) <= 65536 -> apply_transaction E u y ops = (z, Done r) -> exists w, exec_all E ops (db_work y) = Done (w, r) /\ alike E w (db_work z)).
  { intros u z ops y r L W. pose proof (run_of_apply _ _ _ _ _ _ W) as (PW & CW & _). pose proof (apply_exec E u y ops PW CW L) as X.
    destruct (exec_all E ops (db_work y)) as [[w xs]|e|]; [|congruence|congruence]. destruct X as (s1 & ch & X & IV). rewrite W in X. injection X as <- <-.
    exists w. split; [reflexivity|]. exact (invalidate_alike _ _ _ _ EO IV). }
  assert (FR : forall u z ops y r (P : bytes -> Prop), N.of_nat (length ops) <= 65536 -> (forall o, In o ops -> ~ P (op_coll o)) -> apply_transaction E u y ops = (z, Done r) -> alike_on E P (db_work y) (db_work z)).
  { intros u z ops y r P L Q W. destruct (G _ _ _ _ _ L W) as (w & X & A). eapply on_trans; [exact (frame_all E P EO ops _ _ _ Q X)|apply on_of_alike, A]. }
  assert (RE : forall u z z' ops y y' r, N.of_nat (length ops) <= 65536 -> alike_on E (among ops) (db_work y) (db_work y') ->
     apply_transaction E u y ops = (z, Done r) -> apply_transaction E u y' ops = (z', Done r) -> alike_on E (among ops) (db_work z) (db_work z')).
  { intros u z z' ops y y' r L A W W'. destruct (G _ _ _ _ _ L W) as (w & X & B), (G _ _ _ _ _ L W') as (w' & X' & B').
    pose proof (on_all E (among ops) ops _ _ (fun o I => ex_intro _ o (conj I eq_refl)) A) as R. rewrite X, X' in R. cbn in R. destruct R as [R _]. cbn in R.
    eapply on_trans; [apply on_sym, on_of_alike, B|]. eapply on_trans; [exact R|apply on_of_alike, B']. }
  assert (NA : forall o, In o a -> ~ among b (op_coll o)) by (intros o I (u & J & U); exact (SEP o u I J (eq_sym U))).
  assert (NB : forall o, In o b -> ~ among a (op_coll o)) by (intros o I (u & J & U); exact (SEP u o J I U)).
  (* in the collections of a: sab as sa as sba; in those of b: sab as sb as sba; elsewhere all as s *)
  assert (XA : alike_on E (among a) (db_work sab) (db_work sba)).
  { eapply on_trans; [apply on_sym, (FR q sab b sa rb (among a) LB NB HAB)|]. exact (RE p sa sba a s sb ra LA (FR q sb b s rb (among a) LB NB HB) HA HBA). }
  assert (XB : alike_on E (among b) (db_work sab) (db_work sba)).
  { eapply on_trans; [apply on_sym; exact (RE q sb sab b s sa rb LB (FR p sa a s ra (among b) LA NA HA) HB HAB)|]. exact (FR p sba a sb ra (among b) LA NA HBA). }
  set (Q := fun c => ~ among a c /\ ~ among b c).
  assert (QA : forall o, In o a -> ~ Q (op_coll o)) by (intros o I [U _]; apply U; exists o; auto).
  assert (QB : forall o, In o b -> ~ Q (op_coll o)) by (intros o I [_ U]; apply U; exists o; auto).
  assert (XO : alike_on E Q (db_work sab) (db_work sba)).
  { eapply on_trans; [apply on_sym, (FR q sab b sa rb Q LB QB HAB)|]. eapply on_trans; [apply on_sym, (FR p sa a s ra Q LA QA HA)|].
    eapply on_trans; [exact (FR q sb b s rb Q LB QB HB)|exact (FR p sba a sb ra Q LA QA HBA)]. }
  assert (DEC : forall ops c, among ops c \/ ~ among ops c).
  { intros ops c. destruct (existsb (fun o => bytes_eqb (op_coll o) c) ops) eqn:X.
    - left. apply existsb_exists in X. destruct X as (o & I & X). apply bytes_eqb_spec in X. exists o. auto.
    - right. intros (o & I & U). assert (Y : existsb (fun o => bytes_eqb (op_coll o) c) ops = true) by (apply existsb_exists; exists o; split; [exact I|apply bytes_eqb_spec, U]). congruence. }
  split.
  - intros c. destruct (DEC a c) as [A|A]; [apply XA, A|]. destruct (DEC b c) as [B|B]; [apply XB, B|]. apply XO. split; assumption.
  - intros v I. destruct (DEC a (vw_coll v)) as [A|A]; [apply XA; assumption|]. destruct (DEC b (vw_coll v)) as [B|B]; [apply XB; assumption|]. apply XO; [exact I|]. split; assumption.
Qed.
Definition ex_env2 : env := mk_env ex_hash (fun c => if bytes_eqb c [1] || bytes_eqb c [2] then Some (TU 1) else None) [ex_lazy; ex_unique].
Lemma ex_env2_ok : env_ok ex_env2. Proof. exact ex_env_ok. Qed.
Example C24_commute_ex :
  let s := fst (apply_transaction ex_env2 everyone empty_db ex_ops1) in
  let a := [mk_op [1] (Delete ex_h5); mk_op [1] (Insert None [30])] in let b := [mk_op [2] (Insert None [30]); mk_op [2] (Insert (Some [9]) [30])] in
  separate a b /\
  exists sa sb sab sba, apply_transaction ex_env2 everyone s a = (sa, Done [RDeleted [1] [5]; RUpdated [1] (mk_header [7] (mk_rev 0 [9; 30]))]) /\
  apply_transaction ex_env2 everyone s b = (sb, Done [RUpdated [2] (mk_header [1] (mk_rev 0 [9; 30])); RUpdated [2] (mk_header [9] (mk_rev 0 [9; 30]))]) /\
  fst (apply_transaction ex_env2 everyone sa b) = sab /\ fst (apply_transaction ex_env2 everyone sb a) = sba /\ db_log sab <> db_log sba /\
  doc_at sab [1] [5] = None /\ doc_at sab [2] [9] = Some (mk_doc (mk_header [9] (mk_rev 0 [9; 30])) [30]).
Proof.
  split.
  - intros x y [<-|[<-|[]]] [<-|[<-|[]]]; discriminate.
  - eexists. eexists. eexists. eexists. split; [vm_compute; reflexivity|]. split; [vm_compute; reflexivity|]. split; [vm_compute; reflexivity|]. split; [vm_compute; reflexivity|].
    split; [discriminate|]. split; vm_compute; reflexivity.
Qed.

Print Assumptions C24_independent.
Print Assumptions C24_commute.
