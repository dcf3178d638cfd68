(* Model of CollectionDocument::modify, core/src/document/collection.rs:156-189, and
   the async version 203-240. [self] is the CollectionDocument, [f n] the n-th call of
   the modifier (it may carry state between calls); changes it makes to the header are
   not modelled, nor is serialization. Between any two steps other clients apply
   transactions. *)
From Verif Require Import Base Key KeyPrefix DocId Tree View ViewProofs ViewMap Docs DocsProofs DocsSpec DocsMore DocsHist.
Local Open Scope N_scope.

(* steps of other clients and background jobs *)
Inductive others (E : env) : dbstate -> dbstate -> Prop :=
| others_none s : others E s s
| others_tx s p ops s' : others E (fst (apply_transaction E p s ops)) s' -> others E s s'
| others_map s v sh ids s' : In v (ev_views E) -> ViewMap.permutes sh -> sorted ids -> others E (mapper_step E v sh ids s) s' -> others E s s'
| others_scan s v s' : In v (ev_views E) -> others E (scan_step E v s) s' -> others E s s'.

Definition is_conflict (o : outcome (list opres) terr) : bool :=
  match o with Fail (DocumentConflict _ _) => true | _ => false end.

(* modify E p c f n self s before after o: the n-th round of the loop starts with
   [self] at state s; the loop ends with result o, its last transaction was applied
   at state [before] and led to [after], the modifier was called n' times *)
Inductive modify (E : env) (p : session) (c : bytes) (f : nat -> bytes -> bytes)
  : nat -> doc -> dbstate -> dbstate -> dbstate -> nat -> outcome (list opres) terr -> Prop :=
| modify_end n self s s1 s2 o : others E s s1 ->
    apply_transaction E p s1 [mk_op c (Update (d_header self) (f n (d_contents self)))] = (s2, o) -> is_conflict o = false ->
    modify E p c f n self s s1 s2 n o
| modify_retry n self s s1 s2 o s3 self' before after k r : others E s s1 ->
    apply_transaction E p s1 [mk_op c (Update (d_header self) (f n (d_contents self)))] = (s2, o) -> is_conflict o = true ->
    others E s2 s3 -> get_doc p s3 c (h_id (d_header self)) = Done (Some self') ->
    modify E p c f (S n) self' s3 before after k r -> modify E p c f n self s before after k r
| modify_gone n self s s1 s2 o s3 : others E s s1 ->
    apply_transaction E p s1 [mk_op c (Update (d_header self) (f n (d_contents self)))] = (s2, o) -> is_conflict o = true ->
    others E s2 s3 -> get_doc p s3 c (h_id (d_header self)) = Done None ->
    modify E p c f n self s s3 s3 n (Fail (DocumentNotFound c (h_id (d_header self))))
| modify_denied n self s s1 s2 o s3 e : others E s s1 ->
    apply_transaction E p s1 [mk_op c (Update (d_header self) (f n (d_contents self)))] = (s2, o) -> is_conflict o = true ->
    others E s2 s3 -> get_doc p s3 c (h_id (d_header self)) = Fail e ->
    modify E p c f n self s s3 s3 n (Fail e).

Lemma others_reach E s s' : others E s s' -> reach E s -> reach E s'.
Proof.
  induction 1; intros R; [exact R|apply IHothers, reach_tx, R|apply IHothers, reach_map; assumption|apply IHothers, reach_scan; assumption].
Qed.
