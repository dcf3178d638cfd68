(* What overlapping transactions are compared with: the same transactions executed
   one after the other. *)
From Verif Require Import Base Key KeyPrefix DocId Tree View Docs DocsProofs DocsSpec ConcTx.
Local Open Scope N_scope.

Notation result := (outcome (list opres) terr) (only parsing).

(* two states have the same contents in a tree *)
Definition same_tree (t : tname) (a b : work) : Prop :=
  match t with
  | TDocs c => w_docs a c = w_docs b c
  | TMap v => vs_docmap (w_views a v) = vs_docmap (w_views b v)
  | TEntries v => vs_entries (w_views a v) = vs_entries (w_views b v)
  | TInvalid v => vs_invalid (w_views a v) = vs_invalid (w_views b v)
  end.
Definition same_work (a b : work) : Prop := forall t, same_tree t a b.

(* a transaction executed alone: Docs.apply_to_roots and DocsSpec.mapper_step *)
Definition alone (E : env) (s : dbstate) (j : job) : dbstate * result :=
  match j with
  | JTx ops => apply_to_roots E s ops
  | JMap v sh ids =>
      (mapper_step E v sh ids s,
       match map_chunk sh (vw_def v) (w_docs (db_work s) (vw_coll v)) ids (w_views (db_work s) (vw_name v)) with
       | Done _ => Done [] | Fail e => Fail (ViewError e) | Panic => Panic
       end)
  end.
(* one after the other, each with the result it has there *)
Fixpoint serial (E : env) (s : dbstate) (l : list (N * job * result)) (s' : dbstate) : Prop :=
  match l with
  | [] => s' = s
  | (_, j, r) :: l' => snd (alone E s j) = r /\ serial E (fst (alone E s j)) l' s'
  end.
Definition id_of (x : N * job * result) : N := fst (fst x).
Definition ids_of (l : list (N * job * result)) : list N := map id_of l.
(* i was over before j began *)
Definition over_before (tr : list event) (i j : N) : Prop :=
  exists a b c jb, tr = a ++ End_ i :: b ++ Begin j jb :: c.
(* whenever j is in the order, i comes before it *)
Definition precedes (order : list (N * job * result)) (i j : N) : Prop :=
  forall o1 x o2, order = o1 ++ x :: o2 -> id_of x = j -> In i (ids_of o1).
