(* C84: key descriptions *)
From Coq Require Import Lia Arith.
From Verif Require Import Base Key KeySpec Describe.
Local Open Scope nat_scope.

(* the description a type should have: the tree of its parts *)
Fixpoint expected (t : dty) : desc :=
  match t with
  | DBasic k => Basic k
  | DOther n => Other n
  | DNone => Other []
  | DNamed n a ks => Composite (CkStruct n) (map Basic ks) (match a with Some x => [x] | None => [] end)
  | DOpt t => Composite CkOption [expected t] []
  | DRes t e => Composite CkResult [expected t; expected e] []
  | DTup ts => Composite CkTuple (map expected ts) []
  | DStruct n ts => Composite (CkStruct n) (map expected ts) []
  | DEnum k vs =>
      if no_fields vs then Basic k
      else Composite CkTuple (map (fun v => match v with (FieldShape, [t]) => expected t | _ => Basic KUnit end) vs) []
  end.
(* types without: an empty description, structs with braces but no fields, and enums with a
   variant that has several fields (or braces but none) *)
Fixpoint regular (t : dty) : bool :=
  match t with
  | DBasic _ | DOther _ => true
  | DNone => false
  | DNamed _ _ ks => match ks with [] => false | _ => true end
  | DOpt t => regular t
  | DRes t e => regular t && regular e
  | DTup ts | DStruct _ ts => match ts with [] => false | _ => true end && forallb regular ts
  | DEnum _ vs => no_fields vs || forallb (fun v => match v with (UnitShape, _) => true | (FieldShape, [t]) => regular t | _ => false end) vs
  end.
(* the parts of an enum's variants that describe themselves *)
Definition items (vs : list (shape * list dty)) : list dty :=
  flat_map (fun v => match fst v with UnitShape => [DBasic KUnit] | FieldShape => snd v end) vs.

Section DtyInd.
Context (P : dty -> Prop)
  (Hb : forall k, P (DBasic k)) (Ho : forall n, P (DOther n)) (Hn : P DNone) (Hm : forall n a ks, P (DNamed n a ks))
  (Hopt : forall t, P t -> P (DOpt t)) (Hres : forall t e, P t -> P e -> P (DRes t e))
  (Htup : forall ts, Forall P ts -> P (DTup ts)) (Hstr : forall n ts, Forall P ts -> P (DStruct n ts))
  (Hen : forall k vs, Forall (fun v => Forall P (snd v)) vs -> P (DEnum k vs)).
Fixpoint dty_rect' (t : dty) : P t :=
  let list_ind := (fix go (l : list dty) : Forall P l := match l with [] => Forall_nil _ | x :: r => Forall_cons _ (dty_rect' x) (go r) end) in
  match t with
  | DBasic k => Hb k
  | DOther n => Ho n
  | DNone => Hn
  | DNamed n a ks => Hm n a ks
  | DOpt t => Hopt t (dty_rect' t)
  | DRes t e => Hres t e (dty_rect' t) (dty_rect' e)
  | DTup ts => Htup ts (list_ind ts)
  | DStruct n ts => Hstr n ts (list_ind ts)
  | DEnum k vs => Hen k vs ((fix go (l : list (shape * list dty)) : Forall (fun v => Forall P (snd v)) l :=
      match l with [] => Forall_nil _ | x :: r => Forall_cons _ (list_ind (snd x)) (go r) end) vs)
  end.
End DtyInd.

Definition then_visits (o : outcome describer unit) (rest : list visit) : outcome describer unit :=
  match o with Done d => visits rest d | Fail e => Fail e | Panic => Panic end.
(* a type's visits act as recording one description *)
Definition acts (t : dty) : Prop := forall rest st res,
  visits (describe t ++ rest) (mk_describer st res) = then_visits (record (expected t) st res) rest.

Lemma acts_basic k : forall rest st res, visits (VisitType k :: rest) (mk_describer st res) = then_visits (record (Basic k) st res) rest.
Proof. reflexivity. Qed.

(* filling a frame *)
Lemma fill ts : forall c pre attrs st res rest, Forall acts ts -> ts <> [] ->
  visits (flat_map describe ts ++ rest) (mk_describer (mk_frame c (length pre + length ts) pre attrs :: st) res) =
  then_visits (record (Composite c (pre ++ map expected ts) attrs) st res) rest.
Proof.
  induction ts as [|t ts IH]; intros c pre attrs st res rest HF NE; [congruence|].
  inversion HF as [|x l Ht HF' E]; subst. cbn [flat_map map length]. rewrite <- app_assoc, Ht.
  cbn [record f_fields f_cap f_kind f_attrs]. unfold cap_after.
  rewrite app_length. cbn [length].
  replace (length pre <? length pre + S (length ts)) with true by (symmetry; apply Nat.ltb_lt; lia).
  destruct ts as [|t2 ts].
  - rewrite Nat.eqb_refl. reflexivity.
  - replace (length pre + 1 =? length pre + S (length (t2 :: ts))) with false by (symmetry; apply Nat.eqb_neq; cbn; lia).
    cbn [then_visits].
    replace (length pre + S (length (t2 :: ts))) with (length (pre ++ [expected t]) + length (t2 :: ts)) by (rewrite app_length; cbn; lia).
    rewrite IH by (auto; discriminate). now rewrite <- app_assoc.
Qed.
(* a frame that is not full *)
Lemma underfill ts : forall c cap pre attrs st res rest, Forall acts ts -> length pre + length ts < cap ->
  visits (flat_map describe ts ++ rest) (mk_describer (mk_frame c cap pre attrs :: st) res) =
  visits rest (mk_describer (mk_frame c cap (pre ++ map expected ts) attrs :: st) res).
Proof.
  induction ts as [|t ts IH]; intros c cap pre attrs st res rest HF HL; [cbn; now rewrite app_nil_r|].
  inversion HF as [|x l Ht HF' E]; subst. cbn [flat_map map length] in *. rewrite <- app_assoc, Ht.
  cbn [record f_fields f_cap f_kind f_attrs]. unfold cap_after. rewrite app_length. cbn [length].
  replace (length pre <? cap) with true by (symmetry; apply Nat.ltb_lt; lia).
  replace (length pre + 1 =? cap) with false by (symmetry; apply Nat.eqb_neq; lia).
  cbn [then_visits]. rewrite IH; [now rewrite <- app_assoc|auto|rewrite app_length; cbn; lia].
Qed.
Lemma basics ks : flat_map describe (map DBasic ks) = map VisitType ks /\ map expected (map DBasic ks) = map Basic ks.
Proof. induction ks as [|k ks [IH1 IH2]]; cbn; [auto|]. rewrite IH1, IH2. auto. Qed.
Lemma basics_act ks : Forall acts (map DBasic ks).
Proof. induction ks; cbn; constructor; auto. intros rest st res. reflexivity. Qed.

Lemma flat_items vs : flat_map (fun v : shape * list dty => match fst v with UnitShape => [VisitType KUnit] | FieldShape => flat_map describe (snd v) end) vs = flat_map describe (items vs).
Proof.
  induction vs as [|[s ts] vs IH]; cbn [flat_map items fst snd]; [reflexivity|].
  change (flat_map (fun v => match fst v with UnitShape => [DBasic KUnit] | FieldShape => snd v end) vs) with (items vs).
  rewrite IH. destruct s; cbn [app flat_map describe]; [reflexivity|]. induction ts as [|t ts IHt]; cbn [app flat_map]; [reflexivity|].
  rewrite <- app_assoc. now f_equal.
Qed.

Lemma regular_acts t : regular t = true -> acts t.
Proof.
  induction t as [k|n| |n a ks|t IH|t e IHt IHe|ts IH|n ts IH|k vs IH] using dty_rect'; cbn [regular]; intro R; try discriminate.
  - intros rest st res. reflexivity.
  - intros rest st res. reflexivity.
  - intros rest st res. cbn [describe expected app]. destruct ks as [|k0 ks]; [discriminate|].
    destruct (basics (k0 :: ks)) as [B1 B2]. pose proof (basics_act (k0 :: ks)) as BA.
    destruct a as [[x v]|]; cbn [visits visit_one d_stack d_result app f_kind f_cap f_fields f_attrs set_attr];
      rewrite <- B1, <- B2; rewrite <- (map_length DBasic (k0 :: ks));
      refine (fill (map DBasic (k0 :: ks)) _ [] _ st res rest BA _); discriminate.
  - intros rest st res. cbn [describe expected app visits visit_one d_stack d_result].
    pose proof (fill [t] CkOption [] [] st res rest) as F. cbn [flat_map map app length Nat.add] in F. rewrite app_nil_r in F.
    apply F; [constructor; auto|discriminate].
  - apply andb_prop in R. destruct R as [R1 R2]. intros rest st res. cbn [describe expected app visits visit_one d_stack d_result].
    pose proof (fill [t; e] CkResult [] [] st res rest) as F. cbn [flat_map map app length Nat.add] in F. rewrite app_nil_r in F.
    apply F; [repeat constructor; auto|discriminate].
  - apply andb_prop in R. destruct R as [R1 R2]. intros rest st res. cbn [describe expected app visits visit_one d_stack d_result].
    assert (HF : Forall acts ts) by (rewrite forallb_forall in R2; rewrite Forall_forall in *; intros x Hx; apply IH; auto).
    refine (fill ts CkTuple [] [] st res rest HF _). destruct ts; discriminate.
  - apply andb_prop in R. destruct R as [R1 R2]. intros rest st res. cbn [describe expected app visits visit_one d_stack d_result].
    assert (HF : Forall acts ts) by (rewrite forallb_forall in R2; rewrite Forall_forall in *; intros x Hx; apply IH; auto).
    refine (fill ts (CkStruct n) [] [] st res rest HF _). destruct ts; discriminate.
  - intros rest st res. cbn [describe expected]. destruct (no_fields vs) eqn:NF; [reflexivity|]. cbn [orb] in R.
    cbn [app visits visit_one d_stack d_result]. rewrite flat_items.
    assert (L : length vs = length (items vs) /\ Forall acts (items vs) /\
                map (fun v => match v with (FieldShape, [t]) => expected t | _ => Basic KUnit end) vs = map expected (items vs)).
    { clear NF. induction vs as [|[s ts] vs IHv]; cbn; [auto|]. cbn in R. apply andb_prop in R. destruct R as [R1 R2].
      inversion IH as [|x l Hx Hl E]; subst. destruct (IHv Hl R2) as (E1 & E2 & E3). cbn [snd] in Hx.
      destruct s; [|destruct ts as [|t [|]]; try discriminate]; cbn [app length map].
      - rewrite E1, E3. repeat split. constructor; [intros rest' st' res'; reflexivity|exact E2].
      - rewrite E1, E3. inversion Hx; subst. repeat split. constructor; auto. }
    destruct L as (L1 & L2 & L3). rewrite L3, L1.
    refine (fill (items vs) CkTuple [] [] st res rest L2 _).
    destruct vs as [|v vs]; [discriminate|]. intro E. rewrite E in L1. discriminate.
Qed.

(* A regular type's description is the tree of its parts, so that opening a schema that uses it
   as a primary key or view key does not panic *)
Theorem C84_describes : forall name t, regular t = true -> for_key name (describe t) = Done (expected t).
Proof.
  intros name t R. unfold for_key. pose proof (regular_acts t R [] [] None) as H. rewrite app_nil_r in H. rewrite H. reflexivity.
Qed.
(* ... also without any description: the type's name *)
Theorem C84_undescribed : forall name, for_key name (describe DNone) = Done (Other name).
Proof. reflexivity. Qed.

(* An enum with fields: the description works out exactly if the variants have as many parts as
   there are variants; otherwise for_key panics *)
Theorem C84_enum : forall name k vs, no_fields vs = false -> (forall t, In t (items vs) -> regular t = true) ->
  (length (items vs) = length vs -> for_key name (describe (DEnum k vs)) = Done (Composite CkTuple (map expected (items vs)) [])) /\
  (length (items vs) <> length vs -> for_key name (describe (DEnum k vs)) = Panic).
Proof.
  intros name k vs NF HR.
  assert (HA : Forall acts (items vs)) by (apply Forall_forall; intros t Ht; apply regular_acts; auto).
  unfold for_key. cbn [describe]. rewrite NF, flat_items. cbn [visits visit_one d_stack d_result].
  assert (NV : vs <> []) by (intros ->; discriminate).
  split.
  - intro L. rewrite <- L. rewrite <- (app_nil_r (flat_map describe (items vs))).
    pose proof (fill (items vs) CkTuple [] [] [] None [] HA) as F. cbn [length Nat.add] in F. rewrite F; [reflexivity|].
    intro E. rewrite E in L. destruct vs; [congruence|discriminate].
  - intro L. destruct (Nat.lt_ge_cases (length (items vs)) (length vs)) as [LT|GE].
    + rewrite <- (app_nil_r (flat_map describe (items vs))). rewrite (underfill (items vs) CkTuple (length vs) [] [] [] None []); [reflexivity|exact HA|cbn; lia].
    + rewrite <- (firstn_skipn (length vs) (items vs)). rewrite flat_map_app.
      assert (LF : length (firstn (length vs) (items vs)) = length vs) by (rewrite firstn_length; lia).
      assert (HF : Forall acts (firstn (length vs) (items vs)) /\ Forall acts (skipn (length vs) (items vs)))
        by (apply Forall_app; now rewrite firstn_skipn).
      destruct HF as [HF1 HF2].
      pose proof (fill (firstn (length vs) (items vs)) CkTuple [] [] [] None (flat_map describe (skipn (length vs) (items vs))) HF1) as F.
      cbn [length Nat.add] in F. rewrite LF in F. rewrite F; clear F.
      2: { intro E. rewrite E in LF. destruct vs; [congruence|discriminate]. }
      cbn [record then_visits app].
      destruct (skipn (length vs) (items vs)) as [|x r] eqn:S.
      { apply (f_equal (@length dty)) in S. rewrite skipn_length in S. cbn in S. lia. }
      inversion HF2 as [|y l Hx _ E]; subst. cbn [flat_map]. rewrite Hx. reflexivity.
Qed.
(* A derived struct with braces or parentheses but no fields always panics *)
Theorem C84_empty_struct : forall name n, for_key name (describe (DStruct n [])) = Panic.
Proof. reflexivity. Qed.

(* --- what a description says about the encoding ---------------------------------------- *)
(* key types made of integers, bool, (), strings, byte vectors, Option, Result and tuples *)
Fixpoint plain (t : kty) : bool :=
  match t with
  | TU w | TI w => existsb (Nat.eqb w) [1; 2; 4; 8; 16]
  | TBool | TUnit | TBytes | TStr => true
  | TOpt t => plain t
  | TRes t e => plain t && plain e
  | TTup ts => match ts with [] => false | _ => true end && forallb plain ts
  | TNZU _ | TNZI _ | TArr _ | TStruct _ _ | TEnum _ _ _ => false
  end.
Section KtyInd.
Context (P : kty -> Prop).
Context (H : forall t, match t with TOpt u => P u | TRes u e => P u /\ P e | TTup ts => Forall P ts | _ => True end -> P t).
Fixpoint kty_rect' (t : kty) : P t :=
  H t (match t with
       | TOpt u => kty_rect' u
       | TRes u e => conj (kty_rect' u) (kty_rect' e)
       | TTup ts => (fix go (l : list kty) : Forall P l := match l with [] => Forall_nil _ | x :: r => Forall_cons _ (kty_rect' x) (go r) end) ts
       | _ => I
       end).
End KtyInd.
Lemma width_inj b w w' : existsb (Nat.eqb w) [1; 2; 4; 8; 16] = true -> existsb (Nat.eqb w') [1; 2; 4; 8; 16] = true ->
  width_kind b w = width_kind b w' -> w = w'.
Proof.
  intros H H'. apply existsb_exists in H, H'. destruct H as (x & Hx & E), H' as (y & Hy & E'). apply Nat.eqb_eq in E, E'. subst x y.
  destruct Hx as [<-|[<-|[<-|[<-|[<-|[]]]]]], Hy as [<-|[<-|[<-|[<-|[<-|[]]]]]]; destruct b; cbn; congruence.
Qed.
Lemma width_signed w w' : width_kind false w <> width_kind true w'.
Proof.
  do 9 (destruct w as [|w]; [do 9 (destruct w' as [|w']; [discriminate|]); discriminate|]);
  do 9 (destruct w' as [|w']; [discriminate|]); discriminate.
Qed.
Lemma width_int b w k : In k [KBool; KUnit; KBytes; KString] -> width_kind b w <> k.
Proof. intros [<-|[<-|[<-|[<-|[]]]]]; destruct b; do 9 (destruct w as [|w]; [discriminate|]); discriminate. Qed.
Lemma plain_inj t : forall t', plain t = true -> plain t' = true -> expected (of_kty t) = expected (of_kty t') -> t = t'.
Proof.
  induction t as [t IH] using kty_rect'. intros t' P P' E.
  destruct t; try discriminate; destruct t'; try discriminate; cbn [of_kty expected] in E;
    try (inversion E as [E1]; exfalso; first [now apply width_signed in E1 | symmetry in E1; now apply width_signed in E1 | revert E1; apply width_int; cbn; tauto | symmetry in E1; revert E1; apply width_int; cbn; tauto]);
    try reflexivity.
  - inversion E as [E1]. f_equal. exact (width_inj _ _ _ P P' E1).
  - inversion E as [E1]. f_equal. exact (width_inj _ _ _ P P' E1).
  - inversion E as [E1]. f_equal. now apply IH.
  - inversion E as [[E1 E2]]. cbn [plain] in P, P'. apply andb_prop in P, P'. destruct P, P', IH as [IH1 IH2]. f_equal; auto.
  - inversion E as [E1]. clear E. cbn [plain] in P, P'. apply andb_prop in P, P'. destruct P as [_ P], P' as [_ P']. f_equal.
    rewrite !map_map in E1. revert ts0 P' E1. induction IH as [|x l Hx Hl IHl]; intros [|y l'] P' E1; try discriminate; [reflexivity|].
    cbn in P, P', E1. apply andb_prop in P, P'. destruct P as [Px Pl], P' as [Py Pl']. inversion E1 as [[Ea Eb]]. f_equal; auto.
Qed.
Lemma plain_regular t : plain t = true -> regular (of_kty t) = true.
Proof.
  induction t as [t IH] using kty_rect'. destruct t; cbn [plain of_kty regular]; intro P; try discriminate; auto.
  - apply andb_prop in P. destruct P, IH. rewrite Bool.andb_true_iff. auto.
  - apply andb_prop in P. destruct P as [P1 P2]. rewrite Bool.andb_true_iff. split; [destruct ts; [discriminate|reflexivity]|].
    clear P1. induction IH as [|x l Hx Hl IHl]; cbn in *; [reflexivity|]. apply andb_prop in P2. destruct P2. rewrite Bool.andb_true_iff. auto.
Qed.
(* For these the description determines the encoding: types with the same description encode
   and decode alike *)
Theorem C84_determines : forall t t' n n' x, plain t = true -> plain t' = true ->
  for_key n (describe (of_kty t)) = Done x -> for_key n' (describe (of_kty t')) = Done x ->
  (forall v, encode t v = encode t' v) /\ (forall b, decode t b = decode t' b).
Proof.
  intros t t' n n' x P P' E E'. rewrite C84_describes in E, E' by now apply plain_regular.
  assert (t = t') as -> by (apply plain_inj; congruence). auto.
Qed.
Example ex_describes : let t := TTup [TU 8; TStr; TOpt (TRes (TI 4) TBytes); TEnum EscapeNulls 1 [(0%N, []); (1%N, [TStr])]] in
  regular (of_kty t) = true /\ for_key [] (describe (of_kty t)) =
    Done (Composite CkTuple [Basic KU64; Basic KString; Composite CkOption [Composite CkResult [Basic KI32; Basic KBytes] []] [];
            Composite CkTuple [Basic KUnit; Basic KString] []] []) /\
  for_key [] (describe (DNamed [84%N] (Some ([101%N], 5%N)) [KI64])) = Done (Composite (CkStruct [84%N]) [Basic KI64] [([101%N], 5%N)]).
Proof. cbv zeta. repeat match goal with |- _ /\ _ => split end; vm_compute; reflexivity. Qed.
Example ex_determines : plain (TTup [TU 8; TStr; TOpt (TRes (TI 4) TBytes)]) = true /\
  exists x, for_key [] (describe (of_kty (TTup [TU 8; TStr; TOpt (TRes (TI 4) TBytes)]))) = Done x.
Proof. split; [reflexivity|]. eexists. vm_compute. reflexivity. Qed.
Example ex_enum : let vs := [(UnitShape, []); (FieldShape, [DBasic KBytes; DBasic KU16])] in
  no_fields vs = false /\ (forall t, In t (items vs) -> regular t = true) /\ length (items vs) <> length vs.
Proof. cbv zeta. split; [reflexivity|]. split; [intros t [<-|[<-|[<-|[]]]]; reflexivity|discriminate]. Qed.

(* NOT true: that a schema can be used whenever its keys encode and decode. An enum with a
   variant of two fields is a lawful key (its values come back, C03), but its description
   panics: defining a collection with it as primary key, and listing the schemas when a view
   has it as key *)
Theorem C84_lawful_key_refuted : exists t v e, typed t v = true /\ encode t v = Done e /\ decode t e = Done v /\
  forall name, for_key name (describe (of_kty t)) = Panic.
Proof.
  set (t := TEnum EscapeNulls 1 [(0%N, []); (7%N, [TBytes; TU 2])]). set (v := VEnum 7%N [VBytes [9%N]; VU 513%N]).
  exists t, v, (match encode t v with Done e => e | _ => [] end).
  repeat match goal with |- _ /\ _ => split end; vm_compute; reflexivity.
Qed.
(* NOT true: that a description that does come out is that of the type: a part too few and a
   part too many make up for each other *)
Theorem C84_wrong_refuted : exists t a b, t = DTup [DEnum KU8 [(FieldShape, []); (FieldShape, [DBasic KU32])]; DEnum KU8 [(FieldShape, [DBasic a; DBasic b])]] /\
  forall name, for_key name (describe t) = Done (Composite CkTuple [Composite CkTuple [Basic KU32; Composite CkTuple [Basic a] []] []; Basic b] []).
Proof. exists (DTup [DEnum KU8 [(FieldShape, []); (FieldShape, [DBasic KU32])]; DEnum KU8 [(FieldShape, [DBasic KU8; DBasic KU16])]]), KU8, KU16. split; [reflexivity|]. intro name. vm_compute. reflexivity. Qed.
(* NOT true for all types: that the description determines the encoding: arrays are described
   as byte vectors, and how null bytes are handled is not described *)
Theorem C84_ambiguous_refuted :
  (exists t t' v x, (forall n, for_key n (describe (of_kty t)) = Done x) /\ (forall n, for_key n (describe (of_kty t')) = Done x) /\
     typed t v = true /\ typed t' v = true /\ encode t v <> encode t' v) /\
  (exists ts h h' v x, (forall n, for_key n (describe (of_kty (TStruct h ts))) = Done x) /\ (forall n, for_key n (describe (of_kty (TStruct h' ts))) = Done x) /\
     typed (TStruct h ts) v = true /\ encode (TStruct h ts) v <> encode (TStruct h' ts) v).
Proof.
  split.
  - exists (TTup [TArr 1; TStr]), (TTup [TBytes; TStr]), (VTup [VBytes [5%N]; VStr [65%N]]), (Composite CkTuple [Basic KBytes; Basic KString] []).
    repeat match goal with |- _ /\ _ => split end; try (intro; vm_compute; reflexivity); try (vm_compute; reflexivity). vm_compute. discriminate.
  - exists [TBytes; TStr], EscapeNulls, AllowNulls, (VTup [VBytes [0%N]; VStr [65%N]]), (Composite (CkStruct []) [Basic KBytes; Basic KString] []).
    repeat match goal with |- _ /\ _ => split end; try (intro; vm_compute; reflexivity); try (vm_compute; reflexivity). vm_compute. discriminate.
Qed.

Print Assumptions C84_describes.
Print Assumptions C84_undescribed.
Print Assumptions C84_enum.
Print Assumptions C84_empty_struct.
Print Assumptions C84_determines.
Print Assumptions C84_lawful_key_refuted.
Print Assumptions C84_wrong_refuted.
Print Assumptions C84_ambiguous_refuted.
