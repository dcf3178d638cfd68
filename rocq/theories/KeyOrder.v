(* Proofs: byte order of encodings equals Rust's Ord. *)
From Verif Require Import Base Utf8 Key KeySpec KeyProofs.
From Coq Require Import ZifyBool ZifyNat ZifyN.
Local Open Scope N_scope.

Definition thenc (c d : comparison) : comparison := match c with Eq => d | _ => c end.
Definition strong (a b : bytes) : Prop :=
  forall x y, lex (a ++ x) (b ++ y) = thenc (lex a b) (lex x y).
Definition dsafe (a b : bytes) : Prop :=
  (forall s, a <> b ++ 0 :: s) /\ (forall s, b <> a ++ 0 :: s).

Lemma strong_len a b : length a = length b -> strong a b.
Proof. intros H x y. unfold thenc. rewrite (lex_app_len a b x y H). destruct (lex a b); reflexivity. Qed.

Lemma strong_cons a b c : strong a b -> strong (c :: a) (c :: b).
Proof. intros H x y. cbn [app]. rewrite !lex_head_eq by reflexivity. apply H. Qed.

Lemma strong_head a b c d : c < d -> strong (c :: a) (d :: b) /\ strong (d :: b) (c :: a).
Proof.
  intros H. split; intros x y; cbn [app]; cbn [lex].
  - rewrite compare_lt by assumption. reflexivity.
  - rewrite compare_gt by assumption. reflexivity.
Qed.

Lemma strong_dsafe a b : strong a b -> dsafe a b.
Proof.
  intros H. split; intros s ->.
  - specialize (H [] (0 :: s ++ [1])). rewrite app_nil_r in H.
    assert (E1 : lex (b ++ 0 :: s) (b ++ 0 :: s ++ [1]) = Lt).
    { rewrite lex_app_same. rewrite lex_head_eq by reflexivity.
      rewrite <- (app_nil_r s) at 1. rewrite lex_app_same. reflexivity. }
    assert (E2 : lex (b ++ 0 :: s) b = Gt).
    { rewrite <- (app_nil_r b) at 2. rewrite lex_app_same. reflexivity. }
    rewrite E1, E2 in H. discriminate.
  - specialize (H (0 :: s ++ [1]) []). rewrite app_nil_r in H.
    assert (E1 : lex (a ++ 0 :: s ++ [1]) (a ++ 0 :: s) = Gt).
    { rewrite lex_app_same. rewrite lex_head_eq by reflexivity.
      rewrite <- (app_nil_r s) at 2. rewrite lex_app_same. reflexivity. }
    assert (E2 : lex a (a ++ 0 :: s) = Lt).
    { rewrite <- (app_nil_r a) at 1. rewrite lex_app_same. reflexivity. }
    rewrite E1, E2 in H. discriminate.
Qed.

Lemma dsafe_cons c a b : dsafe (c :: a) (c :: b) <-> dsafe a b.
Proof.
  unfold dsafe. split; intros [H1 H2]; split; intros s E.
  - apply (H1 s). cbn [app]. congruence.
  - apply (H2 s). cbn [app]. congruence.
  - cbn [app] in E. injection E as E. exact (H1 s E).
  - cbn [app] in E. injection E as E. exact (H2 s E).
Qed.

Lemma dsafe_head c d a b : c <> d -> dsafe (c :: a) (d :: b).
Proof. intros H. split; intros s E; cbn [app] in E; injection E; congruence. Qed.

Lemma null_free_In l : null_free l = true <-> ~ In 0 l.
Proof.
  unfold null_free. rewrite forallb_forall. split.
  - intros H Hin. specialize (H 0 Hin). discriminate.
  - intros H x Hx. destruct (N.eqb_spec x 0); [subst; contradiction|reflexivity].
Qed.

Lemma null_free_dsafe a b : ~ In 0 a -> ~ In 0 b -> dsafe a b.
Proof.
  intros Ha Hb. split; intros s ->.
  - apply Ha. apply in_or_app. right. left. reflexivity.
  - apply Hb. apply in_or_app. right. left. reflexivity.
Qed.

(* the delimiter byte makes shorter fields sort first *)
Lemma delim_raw a : forall b x y, dsafe a b ->
  lex (a ++ 0 :: x) (b ++ 0 :: y) = thenc (lex a b) (lex x y).
Proof.
  induction a as [|c a IH]; intros [|d b] x y [H1 H2]; cbn [app].
  - rewrite lex_head_eq by reflexivity. reflexivity.
  - rewrite lex_head_lt; [reflexivity|].
    assert (d <> 0) by (intros ->; apply (H2 b); reflexivity). lia.
  - apply lex_gt_lt. rewrite lex_head_lt; [reflexivity|].
    assert (c <> 0) by (intros ->; apply (H1 a); reflexivity). lia.
  - cbn [lex]. destruct (N.compare_spec c d) as [->|L|L]; [|reflexivity|reflexivity].
    apply IH. apply (dsafe_cons d). split; assumption.
Qed.

Lemma delim_esc a : forall b x y, dsafe a b ->
  lex (esc a ++ 0 :: x) (esc b ++ 0 :: y) = thenc (lex a b) (lex x y).
Proof.
  assert (Hd : forall l, exists r, forall z, esc l ++ z = match l with [] => z | c :: _ => c :: r ++ z end).
  { intros [|c l]; [exists []; reflexivity|]. cbn [esc].
    destruct (N.eqb_spec c 0) as [->|]; [exists (0 :: esc l)|exists (esc l)]; reflexivity. }
  induction a as [|c a IH]; intros [|d b] x y [H1 H2].
  - cbn [esc app]. rewrite lex_head_eq by reflexivity. reflexivity.
  - destruct (Hd (d :: b)) as [r Hr]. rewrite Hr. cbn [esc app].
    rewrite lex_head_lt; [reflexivity|].
    assert (d <> 0) by (intros ->; apply (H2 b); reflexivity). lia.
  - destruct (Hd (c :: a)) as [r Hr]. rewrite Hr. cbn [esc app].
    apply lex_gt_lt. rewrite lex_head_lt; [reflexivity|].
    assert (c <> 0) by (intros ->; apply (H1 a); reflexivity). lia.
  - destruct (N.compare_spec c d) as [->|L|L].
    + assert (S := proj1 (dsafe_cons d a b) (conj H1 H2)).
      cbn [esc]. rewrite (lex_head_eq d d a b eq_refl).
      destruct (N.eqb_spec d 0) as [->|Hne]; cbn [app].
      * rewrite !lex_head_eq by reflexivity. apply IH. exact S.
      * rewrite lex_head_eq by reflexivity. apply IH. exact S.
    + destruct (Hd (c :: a)) as [r Hr]. destruct (Hd (d :: b)) as [r' Hr']. rewrite Hr, Hr'.
      rewrite !lex_head_lt by assumption. reflexivity.
    + destruct (Hd (c :: a)) as [r Hr]. destruct (Hd (d :: b)) as [r' Hr']. rewrite Hr, Hr'.
      cbn [lex]. rewrite compare_gt by assumption. reflexivity.
Qed.

(* ---------- kcmp is an equality test ---------- *)
Lemma list_cmp_eq ts : forall a b,
  Forall (fun t => forall a b, typed t a = true -> typed t b = true -> kcmp a b = Eq -> a = b) ts ->
  all2 _ _ typed ts a = true -> all2 _ _ typed ts b = true -> list_cmp _ kcmp a b = Eq -> a = b.
Proof.
  induction ts as [|t ts IH]; intros [|x a] [|y b] HF Ha Hb H; try discriminate; [reflexivity|].
  cbn [all2] in Ha, Hb. apply andb_prop in Ha, Hb. destruct Ha, Hb.
  inversion HF as [|? ? G1 G2]. cbn [list_cmp] in H.
  destruct (kcmp x y) eqn:E; try discriminate. f_equal; [apply G1; auto|apply IH; auto].
Qed.

Lemma on_variant_bool vs (f : list kty -> bool) d :
  on_variant _ f d vs false = true -> exists ts, In (d, ts) vs /\ f ts = true.
Proof.
  induction vs as [|[d' ts] vs IH]; [discriminate|]. cbn [on_variant].
  destruct (N.eqb_spec d d') as [->|]; intros H.
  - exists ts. split; [left; reflexivity|assumption].
  - destruct (IH H) as (ts' & Hin & Hf). exists ts'. split; [right; assumption|assumption].
Qed.

Fixpoint find_variant (d : N) (vs : list (N * list kty)) : option (list kty) :=
  match vs with [] => None | (d', ts) :: r => if d =? d' then Some ts else find_variant d r end.

Lemma on_variant_find A (f : list kty -> A) d vs z :
  on_variant _ f d vs z = match find_variant d vs with Some ts => f ts | None => z end.
Proof.
  induction vs as [|[d' ts] vs IH]; [reflexivity|]. cbn [on_variant find_variant].
  destruct (d =? d'); [reflexivity|exact IH].
Qed.

Lemma find_variant_Forall P d vs ts :
  Forall (fun p => Forall P (snd p)) vs -> find_variant d vs = Some ts -> Forall P ts.
Proof.
  induction 1 as [|[d' ts'] vs H1 _ IH]; [discriminate|]. cbn [find_variant].
  destruct (d =? d'); [intros [= <-]; assumption|assumption].
Qed.

Lemma kcmp_eq t : forall a b, typed t a = true -> typed t b = true -> kcmp a b = Eq -> a = b.
Proof.
  induction t using kty_ind'; intros a b Ha Hb Hc; destruct a; try discriminate; destruct b; try discriminate;
    cbn [kcmp] in Hc; try discriminate; try reflexivity.
  - apply N.compare_eq in Hc. congruence.
  - apply Z.compare_eq in Hc. congruence.
  - apply N.compare_eq in Hc. congruence.
  - apply Z.compare_eq in Hc. congruence.
  - destruct b0, b; congruence.
  - apply lex_eq in Hc. congruence.
  - apply lex_eq in Hc. congruence.
  - apply lex_eq in Hc. congruence.
  - cbn [typed] in Ha, Hb. f_equal. auto.
  - cbn [typed] in Ha, Hb. f_equal. auto.
  - cbn [typed] in Ha, Hb. f_equal. auto.
  - cbn [typed] in Ha, Hb. f_equal. eapply list_cmp_eq; eauto.
  - cbn [typed] in Ha, Hb. f_equal. eapply list_cmp_eq; eauto.
  - cbn [typed] in Ha, Hb. apply andb_prop in Ha, Hb. destruct Ha as [_ Ha], Hb as [_ Hb].
    destruct (N.compare_spec d d0) as [<-|L|L]; try discriminate. f_equal.
    rewrite on_variant_find in Ha, Hb. destruct (find_variant d vs) as [ts|] eqn:E; [|discriminate].
    apply (list_cmp_eq ts); auto. eapply find_variant_Forall with (1 := H); exact E.
Qed.

(* ---------- composites ---------- *)
Definition ordered_at (i : bool) (t : kty) : Prop := forall v1 v2 e1 e2,
  typed t v1 = true -> typed t v2 = true -> orderable i t v1 = true -> orderable i t v2 = true ->
  encode t v1 = Done e1 -> encode t v2 = Done e2 ->
  lex e1 e2 = kcmp v1 v2 /\ (i = true -> dsafe e1 e2) /\ (klen t <> None -> strong e1 e2).

Definition inside_of (h : nulls) : bool := match h with DenyNulls => false | _ => true end.

Lemma FE_fun h ts v b l b' l' : FE h ts v b l -> FE h ts v b' l' -> b = b' /\ l = l'.
Proof.
  intros H1 H2. apply FE_enc_fields with (st := ([], [])) in H1, H2. rewrite H1 in H2.
  cbn [fst snd app] in H2. split; congruence.
Qed.

Lemma thenc_assoc a b c : thenc (thenc a b) c = thenc a (thenc b c).
Proof. destruct a; reflexivity. Qed.

Lemma FE_order h ts : Forall (ordered_at (inside_of h)) ts ->
  forall v1 v2 b1 b2 l1 l2,
  FE h ts v1 b1 l1 -> FE h ts v2 b2 l2 ->
  all2 _ _ typed ts v1 = true -> all2 _ _ typed ts v2 = true ->
  all2 _ _ (orderable (inside_of h)) ts v1 = true -> all2 _ _ (orderable (inside_of h)) ts v2 = true ->
  forall x y, lex (b1 ++ x) (b2 ++ y) = thenc (list_cmp _ kcmp v1 v2) (lex x y).
Proof.
  induction ts as [|t ts IH]; intros HO v1 v2 b1 b2 l1 l2 F1 F2 T1 T2 O1 O2 x y.
  - inversion F1; subst. inversion F2; subst. reflexivity.
  - inversion HO as [|? ? Ht Hts].
    destruct v1 as [|w1 v1]; [discriminate|]. destruct v2 as [|w2 v2]; [discriminate|].
    cbn [all2] in T1, T2, O1, O2. apply andb_prop in T1, T2, O1, O2.
    destruct T1 as [T1 T1'], T2 as [T2 T2'], O1 as [O1 O1'], O2 as [O2 O2'].
    cbn [list_cmp].
    inversion F1 as [|? ? ? ? e1 n1 body1 ls1 K1 E1 G1|? ? ? ? e1 e1' body1 ls1 K1 E1 N1 Q1 G1]; subst;
    inversion F2 as [|? ? ? ? e2 n2 body2 ls2 K2 E2 G2|? ? ? ? e2 e2' body2 ls2 K2 E2 N2 Q2 G2]; subst;
      try congruence; destruct (Ht w1 w2 e1 e2 T1 T2 O1 O2 E1 E2) as (C & D & S).
    + rewrite <- !app_assoc. rewrite S by congruence. rewrite C.
      rewrite (IH Hts _ _ _ _ _ _ G1 G2) by assumption. destruct (kcmp w1 w2); reflexivity.
    + rewrite <- !app_assoc. cbn [app].
      assert (lex (e1' ++ 0 :: body1 ++ x) (e2' ++ 0 :: body2 ++ y)
              = thenc (lex e1 e2) (lex (body1 ++ x) (body2 ++ y))) as ->.
      { destruct h; cbn [handle_nulls] in N1, N2.
        - injection N1 as <-. injection N2 as <-. apply delim_esc. apply D. reflexivity.
        - injection N1 as <-. injection N2 as <-. apply delim_raw. apply D. reflexivity.
        - destruct (existsb (fun b => b =? 0) e1) eqn:X1; [discriminate|].
          destruct (existsb (fun b => b =? 0) e2) eqn:X2; [discriminate|].
          injection N1 as <-. injection N2 as <-. apply delim_raw. apply null_free_dsafe; intros Hin.
          + assert (existsb (fun b => b =? 0) e1 = true) by (apply existsb_exists; exists 0; auto). congruence.
          + assert (existsb (fun b => b =? 0) e2 = true) by (apply existsb_exists; exists 0; auto). congruence. }
      rewrite C, (IH Hts _ _ _ _ _ _ G1 G2) by assumption. destruct (kcmp w1 w2); reflexivity.
Qed.

Lemma composite_order h ts pre v1 v2 e1 e2 : Forall (ordered_at (inside_of h)) ts ->
  all2 _ _ typed ts v1 = true -> all2 _ _ typed ts v2 = true ->
  all2 _ _ (orderable (inside_of h)) ts v1 = true -> all2 _ _ (orderable (inside_of h)) ts v2 = true ->
  finish_outcome (enc_fields encode h ts v1 (pre, [])) = Done e1 ->
  finish_outcome (enc_fields encode h ts v2 (pre, [])) = Done e2 ->
  lex e1 e2 = list_cmp _ kcmp v1 v2 /\ strong e1 e2.
Proof.
  intros HO T1 T2 O1 O2 E1 E2.
  destruct (enc_fields encode h ts v1 (pre, [])) as [s1| |] eqn:F1; try discriminate.
  destruct (enc_fields encode h ts v2 (pre, [])) as [s2| |] eqn:F2; try discriminate.
  apply enc_fields_FE in F1, F2. destruct F1 as (b1 & l1 & F1 & ->), F2 as (b2 & l2 & F2 & ->).
  injection E1 as <-. injection E2 as <-. unfold finish_enc. cbn [fst snd app].
  assert (G : forall x y, lex (((pre ++ b1) ++ flat_map varlen (rev l1)) ++ x)
                              (((pre ++ b2) ++ flat_map varlen (rev l2)) ++ y)
              = thenc (list_cmp _ kcmp v1 v2) (lex x y)).
  { intros x y. rewrite <- !app_assoc. rewrite lex_app_same.
    rewrite (FE_order h ts HO v1 v2 b1 b2 l1 l2 F1 F2 T1 T2 O1 O2).
    destruct (list_cmp _ kcmp v1 v2) eqn:E; try reflexivity. cbn [thenc].
    assert (v1 = v2) as <-.
    { eapply list_cmp_eq with (ts := ts); eauto. apply Forall_forall. intros t _. apply kcmp_eq. }
    destruct (FE_fun _ _ _ _ _ _ _ F1 F2) as [<- <-]. apply lex_app_same. }
  assert (Q := G [] []). rewrite !app_nil_r in Q. change (lex [] []) with Eq in Q.
  assert (Q' : thenc (list_cmp _ kcmp v1 v2) Eq = list_cmp _ kcmp v1 v2) by (destruct (list_cmp _ kcmp v1 v2); reflexivity).
  rewrite Q' in Q. split; [exact Q|]. intros x y. rewrite G, Q. reflexivity.
Qed.

Lemma ordered_nat_compare w z1 z2 :
  (1 <= w)%nat -> (0 <= z1 < 2 ^ (8 * Z.of_nat w - 1))%Z -> (0 <= z2 < 2 ^ (8 * Z.of_nat w - 1))%Z ->
  lex (be w (to_unsigned w z1)) (be w (to_unsigned w z2)) = Z.compare z1 z2.
Proof.
  intros Hw H1 H2. rewrite be_lex by apply to_unsigned_bound.
  rewrite !to_unsigned_nonneg by assumption.
  destruct (N.compare_spec (Z.to_N z1) (Z.to_N z2)), (Z.compare_spec z1 z2); try reflexivity; exfalso; lia.
Qed.

Lemma ordered t : forall i, ordered_at i t.
Proof.
  induction t using kty_ind'; intros i v1 v2 e1 e2 T1 T2 O1 O2 E1 E2;
    destruct v1; try discriminate; destruct v2; try discriminate;
    cbn [encode] in E1, E2; cbn [kcmp].
  - injection E1 as <-. injection E2 as <-. cbn [typed] in T1, T2.
    assert (S : strong (be w n) (be w n0)) by (apply strong_len; rewrite !be_length; reflexivity).
    split; [apply be_lex; lia|]. split; [intros _; apply strong_dsafe; exact S|intros _; exact S].
  - injection E1 as <-. injection E2 as <-. apply typed_I in T1, T2. cbn [orderable] in O1, O2.
    assert (S : strong (be w (to_unsigned w z)) (be w (to_unsigned w z0))) by (apply strong_len; rewrite !be_length; reflexivity).
    split; [apply ordered_nat_compare; lia|]. split; [intros _; apply strong_dsafe; exact S|intros _; exact S].
  - injection E1 as <-. injection E2 as <-. cbn [typed] in T1, T2.
    assert (S : strong (be w n) (be w n0)) by (apply strong_len; rewrite !be_length; reflexivity).
    split; [apply be_lex; lia|]. split; [intros _; apply strong_dsafe; exact S|intros _; exact S].
  - injection E1 as <-. injection E2 as <-. apply typed_NZI in T1, T2. cbn [orderable] in O1, O2.
    assert (S : strong (be w (to_unsigned w z)) (be w (to_unsigned w z0))) by (apply strong_len; rewrite !be_length; reflexivity).
    split; [apply ordered_nat_compare; lia|]. split; [intros _; apply strong_dsafe; exact S|intros _; exact S].
  - injection E1 as <-. injection E2 as <-.
    assert (S : strong [if b then 1 else 0] [if b0 then 1 else 0]) by (apply strong_len; reflexivity).
    split; [destruct b, b0; reflexivity|]. split; [intros _; apply strong_dsafe; exact S|intros _; exact S].
  - injection E1 as <-. injection E2 as <-.
    assert (S : strong [] []) by (apply strong_len; reflexivity).
    split; [reflexivity|]. split; [intros _; apply strong_dsafe; exact S|intros _; exact S].
  - injection E1 as <-. injection E2 as <-. cbn [typed] in T1, T2. apply Nat.eqb_eq in T1, T2.
    assert (S : strong b b0) by (apply strong_len; congruence).
    split; [reflexivity|]. split; [intros _; apply strong_dsafe; exact S|intros _; exact S].
  - injection E1 as <-. injection E2 as <-. split; [reflexivity|]. split; [|cbn [klen]; congruence].
    intros ->. cbn [orderable negb orb] in O1, O2. apply null_free_dsafe; apply null_free_In; assumption.
  - injection E1 as <-. injection E2 as <-. cbn [typed] in T1, T2. apply str_okb_spec in T1, T2.
    split; [apply utf8_lex; assumption|]. split; [|cbn [klen]; congruence].
    intros ->. cbn [orderable negb orb] in O1, O2. apply null_free_In in O1, O2.
    apply null_free_dsafe; rewrite utf8_nul by assumption; assumption.
  - injection E1 as <-. injection E2 as <-.
    assert (S : strong [0] [0]) by (apply strong_len; reflexivity).
    split; [reflexivity|]. split; [intros _; apply strong_dsafe; exact S|intros _; exact S].
  - injection E1 as <-. destruct (encode t v2) as [e| |]; try discriminate. injection E2 as <-.
    assert (S : strong [0] (1 :: e)) by (apply (strong_head [] e 0 1); reflexivity).
    split; [reflexivity|]. split; [intros _; apply strong_dsafe; exact S|intros _; exact S].
  - injection E2 as <-. destruct (encode t v1) as [e| |]; try discriminate. injection E1 as <-.
    assert (S : strong (1 :: e) [0]) by (apply (strong_head [] e 0 1); reflexivity).
    split; [reflexivity|]. split; [intros _; apply strong_dsafe; exact S|intros _; exact S].
  - destruct (encode t v1) as [f1| |] eqn:F1; try discriminate. injection E1 as <-.
    destruct (encode t v2) as [f2| |] eqn:F2; try discriminate. injection E2 as <-.
    cbn [typed orderable] in T1, T2, O1, O2.
    destruct (IHt i v1 v2 f1 f2 T1 T2 O1 O2 F1 F2) as (C & D & S).
    split; [rewrite lex_head_eq by reflexivity; exact C|].
    split; [intros Hi; apply dsafe_cons; auto|].
    cbn [klen]. intros Hk. apply strong_cons. apply S. destruct (klen t); [discriminate|congruence].
  - destruct (encode t1 v1) as [f1| |] eqn:F1; try discriminate. injection E1 as <-.
    destruct (encode t1 v2) as [f2| |] eqn:F2; try discriminate. injection E2 as <-.
    cbn [typed orderable] in T1, T2, O1, O2.
    destruct (IHt1 i v1 v2 f1 f2 T1 T2 O1 O2 F1 F2) as (C & D & S).
    split; [rewrite lex_head_eq by reflexivity; exact C|].
    split; [intros Hi; apply dsafe_cons; auto|]. cbn [klen]. congruence.
  - destruct (encode t1 v1) as [f1| |] eqn:F1; try discriminate. injection E1 as <-.
    destruct (encode t2 v2) as [f2| |] eqn:F2; try discriminate. injection E2 as <-.
    split; [reflexivity|]. split; [intros _; apply dsafe_head; discriminate|]. cbn [klen]. congruence.
  - destruct (encode t2 v1) as [f1| |] eqn:F1; try discriminate. injection E1 as <-.
    destruct (encode t1 v2) as [f2| |] eqn:F2; try discriminate. injection E2 as <-.
    split; [reflexivity|]. split; [intros _; apply dsafe_head; discriminate|]. cbn [klen]. congruence.
  - destruct (encode t2 v1) as [f1| |] eqn:F1; try discriminate. injection E1 as <-.
    destruct (encode t2 v2) as [f2| |] eqn:F2; try discriminate. injection E2 as <-.
    cbn [typed orderable] in T1, T2, O1, O2.
    destruct (IHt2 i v1 v2 f1 f2 T1 T2 O1 O2 F1 F2) as (C & D & S).
    split; [rewrite lex_head_eq by reflexivity; exact C|].
    split; [intros Hi; apply dsafe_cons; auto|]. cbn [klen]. congruence.
  - cbn [typed orderable] in T1, T2, O1, O2.
    destruct (composite_order EscapeNulls ts [] vs vs0 e1 e2) as [C S]; auto.
    { eapply Forall_impl; [|eassumption]. intros t Ht. apply Ht. }
    split; [exact C|]. split; [intros _; apply strong_dsafe; exact S|intros _; exact S].
  - destruct (composite_order h ts [] vs vs0 e1 e2) as [C S]; auto.
    { eapply Forall_impl; [|eassumption]. intros t Ht. apply Ht. }
    { destruct h; exact O1. }
    { destruct h; exact O2. }
    split; [exact C|]. split; [intros _; apply strong_dsafe; exact S|intros _; exact S].
  - cbn [typed] in T1, T2. apply andb_prop in T1, T2. destruct T1 as [D1 T1], T2 as [D2 T2].
    apply N.ltb_lt in D1, D2.
    assert (SB : forall x y, strong (be w d ++ x) (be w d0 ++ y) \/ d = d0).
    { intros x y. destruct (N.eq_dec d d0) as [->|Hne]; [right; reflexivity|left].
      intros x' y'. rewrite <- !app_assoc.
      rewrite !(strong_len (be w d) (be w d0)) by (rewrite !be_length; reflexivity).
      rewrite be_lex by assumption. destruct (N.compare_spec d d0); [contradiction|reflexivity|reflexivity]. }
    assert (LB : forall x y, d <> d0 -> lex (be w d ++ x) (be w d0 ++ y) = N.compare d d0).
    { intros x y Hne. rewrite (strong_len (be w d) (be w d0)) by (rewrite !be_length; reflexivity).
      rewrite be_lex by assumption. destruct (N.compare_spec d d0); [contradiction|reflexivity|reflexivity]. }
    destruct (all_unit vs) eqn:HU.
    + injection E1 as <-. injection E2 as <-.
      assert (S : strong (be w d) (be w d0)) by (apply strong_len; rewrite !be_length; reflexivity).
      split; [|split; [intros _; apply strong_dsafe; exact S|intros _; exact S]].
      rewrite be_lex by assumption.
      destruct (N.compare_spec d d0) as [<-|L|L]; [|reflexivity|reflexivity].
      rewrite on_variant_find in T1, T2. destruct (find_variant d vs) as [ts|] eqn:E; [|discriminate].
      assert (ts = []) as ->.
      { clear -E HU. induction vs as [|[d' ts'] vs IH]; [discriminate|]. cbn [find_variant] in E.
        unfold all_unit in HU. cbn [forallb snd] in HU. apply andb_prop in HU. destruct HU as [H1 H2].
        destruct (d =? d'); [injection E as <-; destruct ts'; [reflexivity|discriminate]|auto]. }
      destruct vs0; [|discriminate]. destruct vs1; [|discriminate]. reflexivity.
    + rewrite on_variant_find in T1, T2, E1, E2.
      destruct (N.eq_dec d d0) as [<-|Hne].
      * destruct (find_variant d vs) as [ts|] eqn:E; [|discriminate].
        destruct (composite_order h ts (be w d) vs0 vs1 e1 e2) as [C S]; auto.
        { assert (HF := find_variant_Forall _ _ _ _ H E).
          eapply Forall_impl; [|exact HF]. intros t Ht. apply Ht. }
        { destruct h; cbn [orderable] in O1; rewrite on_variant_find, E in O1; exact O1. }
        { destruct h; cbn [orderable] in O2; rewrite on_variant_find, E in O2; exact O2. }
        split; [rewrite N.compare_refl; exact C|].
        split; [intros _; apply strong_dsafe; exact S|intros _; exact S].
      * destruct (find_variant d vs) as [ts1|]; [|discriminate].
        destruct (find_variant d0 vs) as [ts2|]; [|discriminate].
        destruct (enc_fields encode h ts1 vs0 (be w d, [])) as [s1| |] eqn:F1; try discriminate.
        destruct (enc_fields encode h ts2 vs1 (be w d0, [])) as [s2| |] eqn:F2; try discriminate.
        apply enc_fields_FE in F1, F2. destruct F1 as (b1 & l1 & F1 & ->), F2 as (b2 & l2 & F2 & ->).
        injection E1 as <-. injection E2 as <-. unfold finish_enc. cbn [fst snd app].
        rewrite <- !app_assoc.
        match goal with |- lex (_ ++ ?x) (_ ++ ?y) = _ /\ _ => destruct (SB x y) as [S|]; [|contradiction];
          assert (LL := LB x y Hne) end.
        rewrite LL. split; [destruct (N.compare_spec d d0); [contradiction|reflexivity|reflexivity]|].
        split; [intros _; apply strong_dsafe; exact S|intros _; exact S].
Qed.

Lemma key_order t v1 v2 e1 e2 :
  typed t v1 = true -> typed t v2 = true ->
  orderable false t v1 = true -> orderable false t v2 = true ->
  encode t v1 = Done e1 -> encode t v2 = Done e2 ->
  lex e1 e2 = kcmp v1 v2.
Proof. intros. eapply (ordered t false); eassumption. Qed.
