(* Lemmas about Dispatch.v *)
From Coq Require Import String.
From Verif Require Import Base Dispatch.
Close Scope string_scope.
Local Open Scope list_scope.

Lemma apiname_eqb_spec x y : apiname_eqb x y = true <-> x = y.
Proof.
  destruct x as [a b], y as [c d]. unfold apiname_eqb. cbn. rewrite andb_true_iff, !String.eqb_eq.
  split; [intros [-> ->]; reflexivity|intros [= -> ->]; split; reflexivity].
Qed.
Lemma apiname_eqb_refl x : apiname_eqb x x = true. Proof. apply apiname_eqb_spec. reflexivity. Qed.
Lemma apiname_eqb_neq x y : x <> y -> apiname_eqb x y = false.
Proof. intros N. destruct (apiname_eqb x y) eqn:E; [|reflexivity]. apply apiname_eqb_spec in E. contradiction. Qed.

Lemma api_name_inj a b : api_name a = api_name b -> a = b.
Proof. intros E. destruct a, b; try reflexivity; vm_compute in E; discriminate. Qed.

Lemma api_eq_dec : forall a b : api, {a = b} + {a <> b}.
Proof. decide equality. Qed.

Section Reg.
  Context {W H D : Type} (L : local W H D) (C : codec) (K : connection (W := W) (H := H)).
  Notation registry := (registry (W := W) (H := H)).

  Lemma lookup_register (r : registry) n f m :
    lookup (register r n f) m = if apiname_eqb n m then Some f else lookup r m.
  Proof.
    unfold lookup, register. cbn. destruct (apiname_eqb n m) eqn:E; [reflexivity|].
    induction r as [|e r IH]; [reflexivity|]. cbn.
    destruct (apiname_eqb (fst e) n) eqn:En; cbn.
    - apply apiname_eqb_spec in En. rewrite En, E. exact IH.
    - destruct (apiname_eqb (fst e) m); [reflexivity|exact IH].
  Qed.

  (* the registration that counts is the last one for the name *)
  Definition latest (l : list (apiname * any_handler (W := W) (H := H))) (n : apiname) := lookup (rev l) n.

  Lemma find_app_last (A : Type) (p : A -> bool) l x : find p (l ++ [x]) = match find p l with Some y => Some y | None => if p x then Some x else None end.
  Proof. induction l as [|y l IH]; cbn; [reflexivity|]. destruct (p y); [reflexivity|exact IH]. Qed.

  Lemma lookup_fold (l : list (apiname * any_handler (W := W) (H := H))) (r : registry) n :
    lookup (fold_left (fun r e => register r (fst e) (snd e)) l r) n = match latest l n with Some f => Some f | None => lookup r n end.
  Proof.
    revert r. induction l as [|e l IH]; intros r; [reflexivity|]. cbn. rewrite IH, lookup_register.
    unfold latest, lookup. cbn. rewrite find_app_last.
    destruct (find (fun e0 => apiname_eqb (fst e0) n) (rev l)); [reflexivity|].
    destruct (apiname_eqb (fst e) n); reflexivity.
  Qed.

  Lemma lookup_builtins (l : list api) (r : registry) n :
    lookup (fold_left (fun r a => register r (api_name a) (builtin L C K a)) l r) n =
    match find (fun a => apiname_eqb (api_name a) n) (rev l) with Some a => Some (builtin L C K a) | None => lookup r n end.
  Proof.
    revert r. induction l as [|a l IH]; intros r; [reflexivity|]. cbn. rewrite IH, lookup_register, find_app_last.
    destruct (find _ (rev l)); [reflexivity|]. destruct (apiname_eqb (api_name a) n); reflexivity.
  Qed.

  Lemma lookup_builtin ph custom a : In a (builtins ph) -> lookup (open_registry L C K ph custom) (api_name a) = Some (builtin L C K a).
  Proof.
    intros I. unfold open_registry. rewrite lookup_builtins.
    destruct (find (fun x => apiname_eqb (api_name x) (api_name a)) (rev (builtins ph))) as [x|] eqn:E.
    - apply find_some in E as [_ E]. apply apiname_eqb_spec, api_name_inj in E. subst x. reflexivity.
    - exfalso. assert (X := List.find_none _ _ E a). rewrite <- in_rev, apiname_eqb_refl in X. specialize (X I). discriminate.
  Qed.

  Lemma lookup_custom ph custom n : (forall a, In a (builtins ph) -> api_name a <> n) ->
    lookup (open_registry L C K ph custom) n = latest custom n.
  Proof.
    intros N. unfold open_registry. rewrite lookup_builtins.
    destruct (find (fun x => apiname_eqb (api_name x) n) (rev (builtins ph))) as [x|] eqn:E.
    - apply find_some in E as [I E]. apply apiname_eqb_spec in E. apply in_rev in I. exfalso. exact (N x I E).
    - rewrite lookup_fold. destruct (latest custom n); reflexivity.
  Qed.

  Variable assume : option N -> W -> outcome H core_error.
  Lemma send_builtin ph custom sid h a r w : In a (builtins ph) -> lawful C -> assume sid w = Done h ->
    send C assume (open_registry L C K ph custom) sid a r w =
    let '(w1, o) := handle L K h a r w in
    (w1, match o with Done x => Done x | Fail (HApi e) => Fail e | Fail (HServer e) => Fail (server_to_core e) | Panic => Fail RequestTimeout end).
  Proof.
    intros I [Rq Rs] A. unfold send, send_api_request, send_request, dispatch, map_err.
    rewrite A, (lookup_builtin _ _ _ I). unfold builtin, any_wrapper. rewrite Rq.
    destruct (handle L K h a r w) as [w1 [x|[e|e]|]]; cbn; rewrite ?Rs; reflexivity.
  Qed.
End Reg.
