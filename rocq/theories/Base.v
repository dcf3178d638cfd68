(* Base vocabulary: bytes, lexicographic order (the order of Rust's [u8], hence
   of nebari's keys), and generic list facts. No code of /repo is modelled here
   except the standard library's slice comparison. *)
From Coq Require Export List Arith NArith ZArith Lia Bool.
Export ListNotations.

(* A byte string. Rust's u8 is a number below 256. *)
Definition bytes := list N.
Definition byte_ok (b : N) : Prop := (b < 256)%N.
Definition bytes_ok (l : bytes) : Prop := Forall byte_ok l.
Definition bytes_okb (l : bytes) : bool := forallb (fun b => b <? 256)%N l.

(* Lexicographic comparison: Ord for [u8] (core::slice). *)
Fixpoint lex (a b : list N) : comparison :=
  match a, b with
  | [], [] => Eq
  | [], _ :: _ => Lt
  | _ :: _, [] => Gt
  | x :: a', y :: b' =>
      match N.compare x y with
      | Eq => lex a' b'
      | c => c
      end
  end.

Definition lex_lt (a b : list N) : Prop := lex a b = Lt.
Definition lex_le (a b : list N) : Prop := lex a b <> Gt.
Definition lex_ltb (a b : list N) : bool := match lex a b with Lt => true | _ => false end.
Definition lex_leb (a b : list N) : bool := match lex a b with Gt => false | _ => true end.

Definition bytes_eqb (a b : list N) : bool := match lex a b with Eq => true | _ => false end.

(* Does [l] start with [p]? (slice::starts_with) *)
Fixpoint starts_with (p l : list N) : bool :=
  match p, l with
  | [], _ => true
  | _ :: _, [] => false
  | x :: p', y :: l' => (x =? y)%N && starts_with p' l'
  end.

(* ---------- facts ---------- *)

Lemma bytes_okb_spec l : bytes_okb l = true <-> bytes_ok l.
Proof.
  unfold bytes_okb, bytes_ok. rewrite forallb_forall, Forall_forall.
  split; intros H x Hx; specialize (H x Hx); unfold byte_ok in *;
    [apply N.ltb_lt in H | apply N.ltb_lt]; assumption.
Qed.

Lemma lex_refl a : lex a a = Eq.
Proof. induction a as [|x a IH]; simpl; [reflexivity|]. rewrite N.compare_refl. exact IH. Qed.

Lemma lex_eq a b : lex a b = Eq <-> a = b.
Proof.
  split; [|intros ->; apply lex_refl].
  revert b; induction a as [|x a IH]; intros [|y b]; simpl; try discriminate; [reflexivity|].
  destruct (N.compare_spec x y) as [->|H|H]; try discriminate.
  intros H. f_equal. apply IH. exact H.
Qed.

Lemma lex_antisym a b : lex b a = CompOpp (lex a b).
Proof.
  revert b; induction a as [|x a IH]; intros [|y b]; simpl; try reflexivity.
  rewrite (N.compare_antisym x y). destruct (N.compare x y); simpl; [apply IH|reflexivity|reflexivity].
Qed.

Lemma lex_gt_lt a b : lex a b = Gt <-> lex b a = Lt.
Proof. rewrite (lex_antisym a b). destruct (lex a b); simpl; split; congruence. Qed.

Lemma lex_lt_trans a b c : lex a b = Lt -> lex b c = Lt -> lex a c = Lt.
Proof.
  revert b c; induction a as [|x a IH]; intros [|y b] [|z c]; simpl; try discriminate; try reflexivity.
  destruct (N.compare_spec x y) as [->|Hxy|Hxy]; try discriminate.
  - destruct (N.compare_spec y z) as [->|Hyz|Hyz]; try discriminate.
    + apply IH.
    + reflexivity.
  - intros _. destruct (N.compare_spec y z) as [->|Hyz|Hyz]; try discriminate; intros _.
    + apply N.compare_lt_iff in Hxy. rewrite Hxy. reflexivity.
    + assert (H : (x < z)%N) by lia. apply N.compare_lt_iff in H. rewrite H. reflexivity.
Qed.

Lemma lex_le_lt_trans a b c : lex a b <> Gt -> lex b c = Lt -> lex a c = Lt.
Proof.
  intros H1 H2. destruct (lex a b) eqn:E.
  - apply lex_eq in E. subst. exact H2.
  - eapply lex_lt_trans; eassumption.
  - congruence.
Qed.

Lemma lex_lt_le_trans a b c : lex a b = Lt -> lex b c <> Gt -> lex a c = Lt.
Proof.
  intros H1 H2. destruct (lex b c) eqn:E.
  - apply lex_eq in E. subst. exact H1.
  - eapply lex_lt_trans; eassumption.
  - congruence.
Qed.

Lemma lex_le_trans a b c : lex a b <> Gt -> lex b c <> Gt -> lex a c <> Gt.
Proof.
  intros H1 H2. destruct (lex a b) eqn:E; [apply lex_eq in E; subst; exact H2| |congruence].
  rewrite (lex_lt_le_trans a b c E H2). discriminate.
Qed.

Lemma lex_lt_irrefl a : lex a a <> Lt.
Proof. rewrite lex_refl. discriminate. Qed.

Lemma lex_app_same p a b : lex (p ++ a) (p ++ b) = lex a b.
Proof. induction p as [|x p IH]; simpl; [reflexivity|]. rewrite N.compare_refl. exact IH. Qed.

(* Equal-length heads decide first. *)
Lemma lex_app_len a b x y :
  length a = length b ->
  lex (a ++ x) (b ++ y) = match lex a b with Eq => lex x y | c => c end.
Proof.
  revert b; induction a as [|c a IH]; intros [|d b]; simpl; try discriminate; [reflexivity|].
  intros H. injection H as H. destruct (N.compare c d); try reflexivity. apply IH. exact H.
Qed.

Lemma lex_nil_l a : lex [] a <> Gt.
Proof. destruct a; simpl; discriminate. Qed.

Lemma bytes_eqb_spec a b : bytes_eqb a b = true <-> a = b.
Proof. unfold bytes_eqb. rewrite <- lex_eq. destruct (lex a b); split; congruence. Qed.

Lemma bytes_eqb_refl a : bytes_eqb a a = true.
Proof. apply bytes_eqb_spec. reflexivity. Qed.

Lemma bytes_eqb_neq a b : bytes_eqb a b = false <-> a <> b.
Proof. split; [intros H E; apply bytes_eqb_spec in E; congruence|].
  intros H. destruct (bytes_eqb a b) eqn:E; [apply bytes_eqb_spec in E; contradiction|reflexivity]. Qed.

Lemma starts_with_spec p l : starts_with p l = true <-> exists s, l = p ++ s.
Proof.
  revert l; induction p as [|x p IH]; intros l; simpl.
  - split; [intros _; exists l; reflexivity|reflexivity].
  - destruct l as [|y l]; [split; [discriminate|intros [s H]; discriminate]|].
    rewrite andb_true_iff, N.eqb_eq, IH. split.
    + intros [-> [s ->]]. exists s. reflexivity.
    + intros [s H]. injection H as -> ->. split; [reflexivity|exists s; reflexivity].
Qed.

Lemma starts_with_app p s : starts_with p (p ++ s) = true.
Proof. apply starts_with_spec. exists s. reflexivity. Qed.

Lemma bytes_ok_app a b : bytes_ok (a ++ b) <-> bytes_ok a /\ bytes_ok b.
Proof. unfold bytes_ok. apply Forall_app. Qed.

Lemma bytes_ok_nil : bytes_ok [].
Proof. constructor. Qed.

Lemma bytes_ok_cons x a : bytes_ok (x :: a) <-> byte_ok x /\ bytes_ok a.
Proof. unfold bytes_ok. split; [intros H; inversion H; auto|intros [H1 H2]; constructor; auto]. Qed.

Lemma bytes_ok_rev a : bytes_ok a -> bytes_ok (rev a).
Proof. unfold bytes_ok. rewrite !Forall_forall. intros H x Hx. apply H. apply in_rev. exact Hx. Qed.

Lemma firstn_exact {A} (a b : list A) : firstn (length a) (a ++ b) = a.
Proof. rewrite firstn_app, Nat.sub_diag, firstn_O, app_nil_r. apply firstn_all. Qed.

Lemma skipn_exact {A} (a b : list A) : skipn (length a) (a ++ b) = b.
Proof. rewrite skipn_app, Nat.sub_diag, skipn_all. reflexivity. Qed.

(* The result type of a Rust function that may panic: a panic is a value. *)
Inductive outcome (A E : Type) : Type :=
| Done (a : A)
| Fail (e : E)
| Panic.
Arguments Done {A E} a.
Arguments Fail {A E} e.
Arguments Panic {A E}.
