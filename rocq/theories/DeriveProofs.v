(* The specification of the derive macros and of derived schemas, and the lemmas behind
   PropDerive.v. *)
From Verif Require Import Base Names Schematic SchematicProofs Vault Derive.
From Coq Require Import Relations.
From Coq Require Import Lia Arith.
Local Open Scope nat_scope.

(* ---------- specification ---------- *)
(* the positions of a struct's fields that are marked #[natural_id] *)
Definition marked (d : data) : list nat :=
  match d with
  | Struct fs => filter (fun i => match nth_error fs i with Some f => (0 <? f_natural f)%nat | None => false end) (seq 0 (length fs))
  | Variants _ => []
  end.
Definition given {A} (o : option A) : Prop := o <> None.
(* the attributes the macro accepts *)
Record acceptable (a : coll_attr) (d : data) : Prop := {
  ac_one : length (marked d) <= 1;
  ac_either : marked d <> [] -> a_natural a = None;
  ac_key : a_required a = true -> given (a_key a);
  ac_hand : a_serial a = Some PNone -> marked d = [] /\ a_natural a = None }.
(* what a schema type brings: its own collections, then those of the schemas it includes, in
   order; a collection used as a schema brings itself and () nothing. Only schemas whose
   inclusions are well-founded bring anything. *)
Inductive brings (P : program) : N -> list N -> Prop :=
  | BrSchema t a ts : p_schema P t = Some a -> brings_all P (h_include a) ts -> brings P t (h_colls a ++ ts)
  | BrUnit : p_schema P ty_unit = None -> brings P ty_unit []
  | BrColl t : p_schema P t = None -> t <> ty_unit -> brings P t [t]
with brings_all (P : program) : list N -> list N -> Prop :=
  | BrNil : brings_all P [] []
  | BrCons t r ts us : brings P t ts -> brings_all P r us -> brings_all P (t :: r) (ts ++ us).
Scheme brings_mut := Induction for brings Sort Prop with brings_all_mut := Induction for brings_all Sort Prop.
Definition includes_directly (P : program) (t u : N) : Prop := exists a, p_schema P t = Some a /\ In u (h_include a).
(* every collection type mentioned compiles, with its views *)
Definition compiled (P : program) (ts : list N) : Prop := forall t, In t ts -> define_act P t <> None.

(* ---------- the fields ---------- *)
Lemma filter_seq_shift (g : nat -> bool) n k : filter g (seq (S k) n) = map S (filter (fun i => g (S i)) (seq k n)).
Proof. revert k. induction n as [|n IH]; intros k; [reflexivity|]. cbn [seq filter]. destruct (g (S k)); cbn [map]; rewrite IH; reflexivity. Qed.
Lemma marked_cons f fs : marked (Struct (f :: fs)) = (if (0 <? f_natural f)%nat then [0] else []) ++ map S (marked (Struct fs)).
Proof.
  cbn [marked length seq filter nth_error]. destruct (0 <? f_natural f)%nat; cbn [app]; [f_equal|]; rewrite filter_seq_shift; cbn [nth_error]; reflexivity.
Qed.
Lemma loop_prev fs i n pk : field_loop i fs true n pk = match marked (Struct fs) with [] => Done (n, pk) | _ => Fail TwoNaturalFields end.
Proof.
  revert i. induction fs as [|f fs IH]; intros i; [reflexivity|]. rewrite marked_cons. cbn [field_loop].
  destruct (0 <? f_natural f)%nat; cbn [app]; [reflexivity|]. rewrite IH. destruct (marked (Struct fs)); reflexivity.
Qed.
Lemma loop_expr fs i e pk : field_loop i fs false (Some e) pk = match marked (Struct fs) with [] => Done (Some e, pk) | _ => Fail FieldAndExpression end.
Proof.
  revert i. induction fs as [|f fs IH]; intros i; [reflexivity|]. rewrite marked_cons. cbn [field_loop].
  destruct (0 <? f_natural f)%nat; cbn [app]; [reflexivity|]. rewrite IH. destruct (marked (Struct fs)); reflexivity.
Qed.
Lemma loop_none fs i pk : field_loop i fs false None pk =
  match marked (Struct fs) with
  | [] => Done (None, pk)
  | [k] => Done (Some (OfField (i + k)), match pk with Some p => Some p | None => match nth_error fs k with Some f => Some (f_ty f) | None => None end end)
  | _ => Fail TwoNaturalFields
  end.
Proof.
  revert i. induction fs as [|f fs IH]; intros i; [reflexivity|]. rewrite marked_cons. cbn [field_loop].
  destruct (0 <? f_natural f)%nat; cbn [app].
  - rewrite loop_prev. destruct (marked (Struct fs)) as [|k r]; cbn [map]; [|reflexivity]. rewrite Nat.add_0_r. cbn [nth_error]. destruct pk; reflexivity.
  - rewrite IH. destruct (marked (Struct fs)) as [|k [|k' r]]; cbn [map]; [reflexivity| |reflexivity].
    rewrite Nat.add_succ_r. cbn [nth_error]. reflexivity.
Qed.
(* the macro in one equation *)
Definition nat_of (a : coll_attr) (d : data) : option natural :=
  match marked d with [] => match a_natural a with Some e => Some (OfExpr e) | None => None end | k :: _ => Some (OfField k) end.
Definition pk_of (a : coll_attr) (d : data) : N :=
  match a_pk a with
  | Some p => p
  | None => match d, marked d with Struct fs, k :: _ => match nth_error fs k with Some f => f_ty f | None => ty_u64 end | _, _ => ty_u64 end
  end.
Definition key_expr (a : coll_attr) : keyexpr :=
  match a_key a with None => NoKey | Some k => if a_required a || negb (a_optional a) then Always k else IfEnabled k end.
Definition ser_of (a : coll_attr) (d : data) : serial :=
  match a_serial a with Some PNone => ByHand | Some p => Formatted p (nat_of a d) | None => DefaultFormat (nat_of a d) end.
Lemma derive_done a d i : derive_collection a d = Done i -> acceptable a d /\
  i = CollImpl (qualified (a_auth a) (a_name a)) (pk_of a d) (a_views a) (key_expr a) (ser_of a d).
Proof.
  unfold derive_collection. intros H.
  destruct (match d with Struct fs => field_loop 0 fs false (match a_natural a with Some e => Some (OfExpr e) | None => None end) (a_pk a) | Variants _ => Done (match a_natural a with Some e => Some (OfExpr e) | None => None end, a_pk a) end) as [[n pk]|e|] eqn:L; try discriminate H.
  assert (X : n = nat_of a d /\ match pk with Some p => p | None => ty_u64 end = pk_of a d /\ length (marked d) <= 1 /\ (marked d <> [] -> a_natural a = None)).
  { unfold nat_of, pk_of. destruct d as [fs|vs].
    - destruct (a_natural a) as [e|] eqn:An.
      + rewrite loop_expr in L. destruct (marked (Struct fs)); [|discriminate]. inversion L; subst. split; [reflexivity|]. split; [destruct (a_pk a); reflexivity|]. split; [cbn; lia|]. intros X; destruct (X eq_refl).
      + rewrite loop_none in L. destruct (marked (Struct fs)) as [|k [|k' r]]; [| |discriminate]; inversion L; subst.
        * split; [reflexivity|]. split; [reflexivity|]. split; [cbn; lia|]. reflexivity.
        * split; [reflexivity|]. split; [destruct (a_pk a); [reflexivity|]; destruct (nth_error fs k); reflexivity|]. split; [cbn; lia|reflexivity].
    - inversion L; subst. cbn [marked]. split; [reflexivity|]. split; [destruct (a_pk a); reflexivity|]. split; [cbn; lia|]. intros X; destruct (X eq_refl). }
  destruct X as (-> & Pk & One & Ei). rewrite Pk in H.
  destruct (a_required a && match a_key a with None => true | Some _ => false end) eqn:K; [discriminate H|].
  assert (Gk : a_required a = true -> given (a_key a)). { intros R. rewrite R in K. intros F. rewrite F in K. discriminate K. }
  unfold ser_of. destruct (a_serial a) as [[| |ty]|] eqn:Se.
  - destruct (nat_of a d) eqn:Nd; [discriminate H|]. inversion H. split; [|reflexivity]. constructor; [exact One|exact Ei|exact Gk|].
    intros _. unfold nat_of in Nd. destruct (marked d); [|discriminate Nd]. destruct (a_natural a); [discriminate Nd|]. split; reflexivity.
  - inversion H. split; [|reflexivity]. constructor; [exact One|exact Ei|exact Gk|]. rewrite Se. discriminate.
  - inversion H. split; [|reflexivity]. constructor; [exact One|exact Ei|exact Gk|]. rewrite Se. discriminate.
  - inversion H. split; [|reflexivity]. constructor; [exact One|exact Ei|exact Gk|]. rewrite Se. discriminate.
Qed.
Lemma derive_acceptable a d : acceptable a d -> exists i, derive_collection a d = Done i.
Proof.
  intros [One Ei Gk Hd]. unfold derive_collection.
  assert (L : exists pk, match d with Struct fs => field_loop 0 fs false (match a_natural a with Some e => Some (OfExpr e) | None => None end) (a_pk a) | Variants _ => Done (match a_natural a with Some e => Some (OfExpr e) | None => None end, a_pk a) end = Done (nat_of a d, pk)).
  { unfold nat_of. destruct d as [fs|vs].
    - destruct (a_natural a) as [e|] eqn:An.
      + rewrite loop_expr. destruct (marked (Struct fs)); [eexists; reflexivity|]. assert (X : @Some N e = None) by (apply Ei; discriminate). discriminate X.
      + rewrite loop_none. destruct (marked (Struct fs)) as [|k [|k' r]]; [eexists; reflexivity|eexists; reflexivity|]. cbn in One. lia.
    - eexists; reflexivity. }
  destruct L as (pk & ->).
  assert (K : a_required a && match a_key a with None => true | Some _ => false end = false).
  { destruct (a_required a) eqn:R; [|reflexivity]. specialize (Gk eq_refl). destruct (a_key a); [reflexivity|]. destruct (Gk eq_refl). }
  rewrite K. destruct (a_serial a) as [[| |ty]|] eqn:Se; try (eexists; reflexivity).
  destruct (Hd eq_refl) as [M A]. unfold nat_of. rewrite M, A. eexists; reflexivity.
Qed.

(* ---------- registering ---------- *)
Lemma run_acts_app l1 l2 s : run_acts (l1 ++ l2) s = match run_acts l1 s with (s1, None) => run_acts l2 s1 | x => x end.
Proof. revert s. induction l1 as [|a l1 IH]; intros s; [reflexivity|]. cbn [app run_acts]. destruct (run_act a s) as [s1 [e|]]; [reflexivity|apply IH]. Qed.
Lemma all_some_in {A B} (f : A -> option B) l : (forall a, In a l -> f a <> None) -> exists bs, all_some f l = Some bs.
Proof.
  induction l as [|a l IH]; intros H; [eexists; reflexivity|]. cbn [all_some]. destruct (IH (fun x I => H x (or_intror I))) as (bs & ->).
  destruct (f a) eqn:E; [eexists; reflexivity|]. destruct (H a (or_introl eq_refl) E).
Qed.
Lemma all_some_app {A B} (f : A -> option B) l1 l2 bs : all_some f (l1 ++ l2) = Some bs -> exists b1 b2, all_some f l1 = Some b1 /\ all_some f l2 = Some b2 /\ bs = b1 ++ b2.
Proof.
  revert bs. induction l1 as [|a l1 IH]; intros bs H; [exists [], bs; auto|]. cbn [app all_some] in H |- *.
  destruct (f a) as [b|]; [|discriminate H]. destruct (all_some f (l1 ++ l2)) as [r|]; [|discriminate H]. destruct (IH r eq_refl) as (b1 & b2 & -> & -> & ->). inversion H. exists (b :: b1), b2. auto.
Qed.
Lemma all_some_forall2 {A B} (f : A -> option B) l bs : all_some f l = Some bs -> Forall2 (fun a b => f a = Some b) l bs.
Proof.
  revert bs. induction l as [|a l IH]; intros bs H; cbn [all_some] in H; [inversion H; constructor|].
  destruct (f a) eqn:E; [|discriminate H]. destruct (all_some f l); [|discriminate H]. inversion H. constructor; auto.
Qed.
Definition returned (p : schematic * option serr) : ret := Returned (fst p) (snd p).
Definition does_as (P : program) (t : N) (ts : list N) : Prop := exists d0, forall d, d0 <= d -> forall acts s, all_some (define_act P) ts = Some acts -> define_collections P d t s = returned (run_acts acts s).
Definition does_all_as (P : program) (l ts : list N) : Prop := exists d0, forall d, d0 <= d -> forall acts s, all_some (define_act P) ts = Some acts -> includes (define_collections P d) l s = returned (run_acts acts s).
Lemma brings_runs P t ts : brings P t ts -> does_as P t ts.
Proof.
  apply (brings_mut P (fun t ts _ => does_as P t ts) (fun l ts _ => does_all_as P l ts)).
  - intros t0 a ts0 Pa _ (d0 & H). exists (S d0). intros [|d] L acts s A; [lia|]. cbn [define_collections]. rewrite Pa.
    destruct (all_some_app _ _ _ _ A) as (b1 & b2 & -> & A2 & ->). rewrite run_acts_app. destruct (run_acts b1 s) as [s1 [e|]] eqn:R; [reflexivity|]. rewrite (H d ltac:(lia) b2 s1 A2). reflexivity.
  - intros Pn. exists 1. intros [|d] L acts s A; [lia|]. inversion A. cbn [define_collections]. rewrite Pn. reflexivity.
  - intros t0 Pn Ne. exists 1. intros [|d] L acts s A; [lia|]. cbn [define_collections]. rewrite Pn. apply N.eqb_neq in Ne. rewrite Ne. cbn [all_some] in A.
    destruct (define_act P t0); [|discriminate A]. inversion A. cbn [run_acts]. destruct (run_act a s) as [s1 [e|]]; reflexivity.
  - exists 0. intros d _ acts s A. inversion A. reflexivity.
  - intros t0 r ts0 us _ (d1 & H1) _ (d2 & H2). exists (d1 + d2). intros d L acts s A. destruct (all_some_app _ _ _ _ A) as (b1 & b2 & A1 & A2 & ->).
    cbn [includes]. rewrite (H1 d ltac:(lia) b1 s A1), run_acts_app. destruct (run_acts b1 s) as [s1 [e|]]; cbn [returned fst snd]; [reflexivity|]. apply (H2 d ltac:(lia) b2 s1 A2).
Qed.
(* deeper is the same *)
Lemma includes_ext (f g : N -> schematic -> ret) : (forall t s, f t s <> Running -> g t s = f t s) -> forall l s, includes f l s <> Running -> includes g l s = includes f l s.
Proof.
  intros H l. induction l as [|t l IH]; intros s R; [reflexivity|]. cbn [includes] in R |- *.
  destruct (f t s) as [s1 [e|]| |] eqn:F; [| |destruct (R eq_refl)|]; (rewrite (H t s); [|rewrite F; discriminate]); rewrite F; [reflexivity|exact (IH s1 R)|reflexivity].
Qed.
Lemma depth_mono P d t s : define_collections P d t s <> Running -> forall d', d <= d' -> define_collections P d' t s = define_collections P d t s.
Proof.
  revert t s. induction d as [|d IH]; intros t s R [|d'] L; try lia; [destruct (R eq_refl)|destruct (R eq_refl)|].
  cbn [define_collections] in R |- *. destruct (p_schema P t) as [a|]; [|reflexivity]. destruct (all_some (define_act P) (h_colls a)); [|reflexivity].
  destruct (run_acts l s) as [s1 [e|]]; [reflexivity|]. refine (includes_ext _ _ _ _ _ R). intros u s2 X. apply IH; [exact X|lia].
Qed.
(* a success needs a success of everything included, one level down *)
Lemma success_in P d t s s' u : define_collections P d t s = Returned s' None -> includes_directly P t u ->
  exists d' s1 s2, d = S d' /\ define_collections P d' u s1 = Returned s2 None.
Proof.
  intros H (a & Pa & I). destruct d as [|d]; [discriminate H|]. cbn [define_collections] in H. rewrite Pa in H. destruct (all_some (define_act P) (h_colls a)); [|discriminate H].
  destruct (run_acts l s) as [s0 [e|]]; [discriminate H|]. clear Pa. revert s0 H I. induction (h_include a) as [|v r IH]; intros s0 H I; [destruct I|]. cbn [includes] in H.
  destruct (define_collections P d v s0) as [s1 [e|]| |] eqn:D; try discriminate H. destruct I as [->|I]; [exists d, s0, s1; auto|exact (IH s1 H I)].
Qed.
Lemma success_reach P t u : clos_trans _ (includes_directly P) t u -> forall d s s', define_collections P d t s = Returned s' None ->
  exists d' s1 s2, d' < d /\ define_collections P d' u s1 = Returned s2 None.
Proof.
  induction 1 as [t u I|t u v _ IH1 _ IH2]; intros d s s' H.
  - destruct (success_in _ _ _ _ _ _ H I) as (d' & s1 & s2 & -> & R). exists d', s1, s2. split; [lia|exact R].
  - destruct (IH1 _ _ _ H) as (d1 & s1 & s2 & L1 & R1). destruct (IH2 _ _ _ R1) as (d2 & s3 & s4 & L2 & R2). exists d2, s3, s4. split; [lia|exact R2].
Qed.
Lemma cycle_fails P t : clos_trans _ (includes_directly P) t t -> forall d s s', define_collections P d t s <> Returned s' None.
Proof.
  intros C d. induction d as [d IH] using (well_founded_induction lt_wf). intros s s' H. destruct (success_reach _ _ _ C _ _ _ H) as (d' & s1 & s2 & L & R). exact (IH d' L s1 s2 R).
Qed.
(* a ranking gives a list *)
Lemma ranked_brings P (rank : N -> nat) : (forall t u, includes_directly P t u -> rank u < rank t) -> forall t, exists ts, brings P t ts.
Proof.
  intros R t. remember (rank t) as n eqn:E. revert t E. induction n as [n IH] using (well_founded_induction lt_wf). intros t ->.
  destruct (p_schema P t) as [a|] eqn:Pa.
  - assert (X : exists ts, brings_all P (h_include a) ts).
    { assert (Y : forall u, In u (h_include a) -> exists ts, brings P u ts). { intros u I. refine (IH (rank u) _ u eq_refl). apply R. exists a. auto. }
      induction (h_include a) as [|u r IHr]; [exists []; constructor|]. destruct (Y u (or_introl eq_refl)) as (ts & B). destruct (IHr (fun v I => Y v (or_intror I))) as (us & Bs). exists (ts ++ us). constructor; assumption. }
    destruct X as (ts & X). exists (h_colls a ++ ts). econstructor; eassumption.
  - destruct (N.eq_dec t ty_unit) as [->|Ne]; [exists []; constructor; exact Pa|exists [t]; constructor; assumption].
Qed.

(* ---------- what is declared ---------- *)
Lemma define_act_shape P t a : define_act P t = Some a -> exists i vs, collection_of P t = Some i /\ Forall2 (fun v x => view_of P v = Some x) (i_views i) vs /\
  a = DefCollection (CollInfo t (code P (i_name i)) (i_pk i) (key_of (p_enabled P) i)) (map (fun v => DefView v false) vs) false.
Proof.
  unfold define_act. destruct (collection_of P t) as [i|] eqn:C; [|discriminate]. destruct (all_some (view_of P) (i_views i)) as [vs|] eqn:A; [|discriminate].
  intros [= <-]. exists i, vs. split; [reflexivity|]. split; [apply all_some_forall2; exact A|reflexivity].
Qed.
Lemma declared_views vs : flat_map declared (map (fun v => DefView v false) vs) = map RView vs.
Proof. induction vs as [|v vs IH]; [reflexivity|]. cbn [map flat_map]. rewrite IH. reflexivity. Qed.
Lemma checked_views vs : (fix go l := match l with [] => true | a :: r => checked a && go r end) (map (fun v => DefView v false) vs) = true.
Proof. induction vs as [|v vs IH]; [reflexivity|exact IH]. Qed.

(* ---------- names, as the attributes give them ---------- *)
Definition coll_name (P : program) (t : N) : option qname :=
  match p_coll P t with Some (a, _) => Some (qualified (a_auth a) (a_name a)) | None => None end.
Definition short_name (wa : view_attr) : name := name_of (match w_name wa with Some n => n | None => w_ident wa end).
Definition full_name (P : program) (v : N) : option (qname * name) :=
  match p_view P v with
  | Some (wa, _) => match coll_name P (w_coll wa) with Some q => Some (q, short_name wa) | None => None end
  | None => None
  end.
Definition listed (P : program) (t : N) : list N := match p_coll P t with Some (a, _) => a_views a | None => [] end.
Definition wanted_key (enabled : bool) (a : coll_attr) : option N :=
  match a_key a with Some k => if a_optional a && negb (a_required a) && negb enabled then None else k | None => None end.
Record numbered (P : program) : Prop := {
  nb_code : forall q r, code P q = code P r -> q = r;
  nb_vcode : forall q n r m, vcode P q n = vcode P r m -> q = r /\ n = m }.
Definition num_of (P : program) (o : option qname) : N := match o with Some q => code P q | None => 0%N end.
Definition vnum_of (P : program) (o : option (qname * name)) : N := match o with Some (q, n) => vcode P q n | None => 0%N end.

Lemma collection_of_shape P t i : collection_of P t = Some i -> exists a d, p_coll P t = Some (a, d) /\ acceptable a d /\ natural_typed d i = true /\
  i = CollImpl (qualified (a_auth a) (a_name a)) (pk_of a d) (a_views a) (key_expr a) (ser_of a d).
Proof.
  unfold collection_of. destruct (p_coll P t) as [[a d]|]; [|discriminate]. destruct (derive_collection a d) as [j|e|] eqn:D; try discriminate.
  destruct (natural_typed d j) eqn:Ty; [|discriminate]. intros [= ->]. destruct (derive_done _ _ _ D) as (A & E). exists a, d. auto.
Qed.
Lemma key_wanted enabled i a : i_key i = key_expr a -> key_of enabled i = wanted_key enabled a.
Proof.
  intros E. unfold key_of, wanted_key. rewrite E. unfold key_expr. destruct (a_key a); [|reflexivity]. destruct (a_required a), (a_optional a), enabled; reflexivity.
Qed.
Record view_says (P : program) (v : N) (x : view_inst) : Prop := {
  vs_type : vi_type x = v;
  vs_attr : exists wa xa q, p_view P v = Some (wa, xa) /\ coll_name P (w_coll wa) = Some q /\
    vi_name x = vcode P q (short_name wa) /\ vi_coll x = code P q /\ vi_key x = w_key wa /\
    vi_policy x = match x_policy xa with Some p => p | None => Lazy end /\ vi_version x = match x_version xa with Some n => n | None => 0%N end }.
Lemma view_of_shape P v x : view_of P v = Some x -> view_says P v x.
Proof.
  unfold view_of. destruct (p_view P v) as [[wa xa]|] eqn:Pv; [|discriminate]. cbv zeta.
  destruct (u_view (derive_vschema v (o_key (derive_view wa)) xa) =? v)%N; [|discriminate].
  destruct (collection_of P (o_coll (derive_view wa))) as [c|] eqn:C; [|discriminate]. intros [= <-].
  destruct (collection_of_shape _ _ _ C) as (a & d & Pa & _ & _ & ->). constructor; [reflexivity|]. exists wa, xa, (qualified (a_auth a) (a_name a)).
  split; [exact Pv|]. split; [unfold coll_name; cbn in Pa; rewrite Pa; reflexivity|]. repeat split; reflexivity.
Qed.
Lemma says_name P v x : view_says P v x -> vi_name x = vnum_of P (full_name P v) /\ full_name P v <> None.
Proof.
  intros [_ (wa & xa & q & Pv & Q & Nm & _)]. unfold full_name. rewrite Pv, Q. split; [exact Nm|discriminate].
Qed.
Lemma map_flat {A B C} (g : B -> C) (f : A -> list B) l : map g (flat_map f l) = flat_map (fun a => map g (f a)) l.
Proof. induction l as [|a l IH]; [reflexivity|]. cbn [flat_map]. rewrite map_app, IH. reflexivity. Qed.
Lemma colls_app r1 r2 : colls (r1 ++ r2) = colls r1 ++ colls r2.
Proof. induction r1 as [|[c|v] r IH]; [reflexivity| |]; cbn [app colls]; rewrite IH; reflexivity. Qed.
Lemma vws_app r1 r2 : vws (r1 ++ r2) = vws r1 ++ vws r2.
Proof. induction r1 as [|[c|v] r IH]; [reflexivity| |]; cbn [app vws]; rewrite IH; reflexivity. Qed.
Lemma colls_views vs : colls (map RView vs) = [].
Proof. induction vs; [reflexivity|assumption]. Qed.
Lemma vws_views vs : vws (map RView vs) = vs.
Proof. induction vs as [|v vs IH]; [reflexivity|]. cbn. rewrite IH. reflexivity. Qed.
Lemma declared_coll c vs : declared (DefCollection c (map (fun v => DefView v false) vs) false) = RColl c :: map RView vs.
Proof. cbn. f_equal. induction vs as [|v vs IH]; [reflexivity|]. cbn. f_equal. exact IH. Qed.

(* the registrations of a list of collection types *)
Definition info_says (P : program) (t : N) (c : coll_info) : Prop := exists a d, p_coll P t = Some (a, d) /\
  c = CollInfo t (code P (qualified (a_auth a) (a_name a))) (pk_of a d) (wanted_key (p_enabled P) a).
Lemma declares_of P ts : forall acts, all_some (define_act P) ts = Some acts ->
  forallb checked acts = true /\ Forall2 (info_says P) ts (colls (declares acts)) /\ Forall2 (view_says P) (flat_map (listed P) ts) (vws (declares acts)).
Proof.
  induction ts as [|t ts IH]; intros acts H; cbn [all_some] in H.
  - inversion H. repeat split; constructor.
  - destruct (define_act P t) as [a|] eqn:D; [|discriminate H]. destruct (all_some (define_act P) ts) as [r|]; [|discriminate H]. inversion H; subst acts.
    destruct (IH r eq_refl) as (Ch & Fc & Fv). destruct (define_act_shape _ _ _ D) as (i & vs & C & F & ->). destruct (collection_of_shape _ _ _ C) as (at_ & d & Pa & Ac & Ty & Ei).
    split; [cbn [forallb]; rewrite Ch; cbn [checked negb]; rewrite checked_views; reflexivity|].
    unfold declares in *. cbn [flat_map]. rewrite declared_coll, colls_app, vws_app. cbn [colls vws]. rewrite colls_views, vws_views. split.
    + cbn [app]. constructor; [|exact Fc]. exists at_, d. split; [exact Pa|]. subst i. cbn [i_name i_pk]. f_equal. apply key_wanted. reflexivity.
    + apply Forall2_app; [|exact Fv]. unfold listed. rewrite Pa. subst i. cbn [i_views] in F. clear -F. induction F; constructor; [apply view_of_shape; assumption|assumption].
Qed.
Lemma NoDup_map_in {A B} (f : A -> B) l : (forall a b, In a l -> In b l -> f a = f b -> a = b) -> (NoDup (map f l) <-> NoDup l).
Proof.
  intros I. split.
  - apply NoDup_map_inv.
  - induction l as [|a l IH]; intros Nd; [constructor|]. inversion Nd; subst. cbn [map]. constructor.
    + rewrite in_map_iff. intros (b & E & Ib). apply (I b a) in E; [subst; contradiction|right; exact Ib|left; reflexivity].
    + apply IH; [intros x y X Y; apply I; right; assumption|assumption].
Qed.
Lemma names_num P ts cs : Forall2 (info_says P) ts cs -> map ci_name cs = map (num_of P) (map (coll_name P) ts) /\ (forall o, In o (map (coll_name P) ts) -> o <> None).
Proof.
  induction 1 as [|t c ts cs (a & d & Pa & ->) _ (IH1 & IH2)]; [split; [reflexivity|intros o []]|]. assert (E : coll_name P t = Some (qualified (a_auth a) (a_name a))) by (unfold coll_name; rewrite Pa; reflexivity).
  cbn [map]. rewrite IH1, E. split; [reflexivity|]. intros o [<-|I]; [discriminate|exact (IH2 o I)].
Qed.
Lemma vnames_num P vs xs : Forall2 (view_says P) vs xs -> map vi_name xs = map (vnum_of P) (map (full_name P) vs) /\ (forall o, In o (map (full_name P) vs) -> o <> None).
Proof.
  induction 1 as [|v x vs xs H _ (IH1 & IH2)]; [split; [reflexivity|intros o []]|]. destruct (says_name _ _ _ H) as (E & Ne). cbn [map]. rewrite IH1, E. split; [reflexivity|].
  intros o [<-|I]; [exact Ne|exact (IH2 o I)].
Qed.
Lemma types_of P vs xs : Forall2 (view_says P) vs xs -> map vi_type xs = vs.
Proof. induction 1 as [|v x vs xs [T _] _ IH]; [reflexivity|]. cbn [map]. rewrite T, IH. reflexivity. Qed.
Lemma distinct_iff P ts acts : numbered P -> all_some (define_act P) ts = Some acts ->
  (distinct_names (declares acts) <-> NoDup (map (coll_name P) ts) /\ NoDup (map (full_name P) (flat_map (listed P) ts))).
Proof.
  intros [C V] H. destruct (declares_of _ _ _ H) as (_ & Fc & Fv). destruct (names_num _ _ _ Fc) as (E1 & S1). destruct (vnames_num _ _ _ Fv) as (E2 & S2).
  unfold distinct_names. rewrite E1, E2. rewrite (NoDup_map_in (num_of P)), (NoDup_map_in (vnum_of P)); [reflexivity| |].
  - intros [[q n]|] [[r m]|] I J X; try (destruct (S2 _ I eq_refl)); try (destruct (S2 _ J eq_refl)). cbn in X. apply V in X. destruct X as [-> ->]. reflexivity.
  - intros [q|] [r|] I J X; try (destruct (S1 _ I eq_refl)); try (destruct (S1 _ J eq_refl)). cbn in X. apply C in X. rewrite X. reflexivity.
Qed.
