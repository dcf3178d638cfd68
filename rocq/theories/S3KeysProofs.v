(* Lemmas about S3Keys.v. *)
From Coq Require Import ZifyBool Lia Arith.
From Verif Require Import Base Vault DocId OpenStorage OpenStorageProofs S3Keys.
Local Open Scope N_scope.

(* ---------- names ---------- *)
Lemma nib_inj a b : a < 16 -> b < 16 -> nib a = nib b -> a = b.
Proof. unfold nib. intros A B. destruct (a <? 10) eqn:X, (b <? 10) eqn:Y; lia. Qed.
Lemma hexw_length w : forall n, length (hexw w n) = w.
Proof. induction w as [|w IH]; intros n; [reflexivity|]. cbn [hexw]. rewrite app_length, IH. cbn. lia. Qed.
Lemma hexw_inj w : forall a b, a < 16 ^ N.of_nat w -> b < 16 ^ N.of_nat w -> hexw w a = hexw w b -> a = b.
Proof.
  induction w as [|w IH]; intros a b A B E; [cbn in A, B; lia|]. cbn [hexw] in E. apply app_inj_tail in E as (E & F).
  assert (P : 16 ^ N.of_nat (S w) = 16 * 16 ^ N.of_nat w).
  { replace (N.of_nat (S w)) with (N.succ (N.of_nat w)) by lia. apply N.pow_succ_r. lia. }
  apply nib_inj in F; try (apply N.mod_upper_bound; lia).
  apply IH in E; try (apply N.div_lt_upper_bound; lia).
  pose proof (N.div_mod a 16 ltac:(lia)). pose proof (N.div_mod b 16 ltac:(lia)). lia.
Qed.
Lemma app_same_end {A} (a b c d : list A) : length b = length d -> a ++ b = c ++ d -> a = c /\ b = d.
Proof.
  intros L E. assert (La : length a = length c) by (apply (f_equal (@length A)) in E; rewrite !app_length in E; lia).
  revert c La E. induction a as [|x a IH]; intros [|y c] La E; cbn in La; try discriminate; [split; [reflexivity|exact E]|].
  cbn in E. injection E as -> E. destruct (IH c ltac:(lia) E) as (-> & ->). split; reflexivity.
Qed.
Lemma obytes_eqb_spec a b : obytes_eqb a b = true <-> a = b.
Proof.
  destruct a as [a|], b as [b|]; cbn; try (split; [discriminate|congruence]); [|split; reflexivity].
  rewrite bytes_eqb_spec. split; [intros ->; reflexivity|intros [= ->]; reflexivity].
Qed.
Lemma where_eqb_spec a b : where_eqb a b = true <-> a = b.
Proof.
  destruct a as [[e1 b1] n1], b as [[e2 b2] n2]. unfold where_eqb. rewrite !Bool.andb_true_iff, obytes_eqb_spec, !bytes_eqb_spec.
  split; [intros ((-> & ->) & ->); reflexivity|intros [= -> -> ->]; repeat split].
Qed.
Lemma put_same o w b : put_object o w b w = b.
Proof. unfold put_object. rewrite (proj2 (where_eqb_spec w w) eq_refl). reflexivity. Qed.
Lemma put_other o w b v : v <> w -> put_object o w b v = o v.
Proof. intros D. unfold put_object. destruct (where_eqb v w) eqn:E; [apply where_eqb_spec in E; contradiction|reflexivity]. Qed.

Section H.
  Context (H : hpke) (W : lawful H) (conf : nat -> s3 * N).

  Lemma run_app es1 : forall es2 s, run H conf s (es1 ++ es2) = run H conf (run H conf s es1) es2.
  Proof. induction es1 as [|e es1 IH]; intros es2 s; [reflexivity|]. cbn [app run]. apply IH. Qed.

  Lemma unseal_whole g o c i : gen_ok H g -> o (object_of c i) = Some (put_pair (g_pair H g)) ->
    unseal H (Some (sealed_file H g)) (vault_key_for H o c i Answered) = Opened 0 (g_master g).
  Proof.
    intros G K. destruct (sealed_shape H W g G) as (enc & ct & tag & _ & E & O & A & B & C & D). unfold unseal. cbn [bytes_of].
    rewrite E, (take_sealed_put H) by assumption. unfold vault_key_for. rewrite K, (take_pair_put H W) by exact G. cbn [g_pair k_priv]. rewrite O.
    rewrite take_masters_one by apply G. reflexivity.
  Qed.

  (* the object of directory d is only changed from outside while nothing depends on it *)
  Definition unused (s : state) (d : nat) : Prop :=
    mk s d = None /\ match at_ s d with Checking _ | Sealing _ => False | _ => True end.
  Definition touches (s : state) (d : nat) (e : event) : Prop :=
    match e with
    | Put d' _ => d' <> d /\ key_object conf d' = key_object conf d
    | Arrive n => exists b, nth_error (late s) n = Some (key_object conf d, b)
    | Outside w _ => w = key_object conf d
    | _ => False
    end.
  Fixpoint quiet (d : nat) (s : state) (es : list event) : Prop :=
    match es with
    | [] => True
    | e :: es => (touches s d e -> unused s d) /\ quiet d (step H conf s e) es
    end.
  Lemma quiet_app d es1 : forall es2 s, quiet d s (es1 ++ es2) <-> quiet d s es1 /\ quiet d (run H conf s es1) es2.
  Proof. induction es1 as [|e es1 IH]; intros es2 s; cbn; [tauto|]. rewrite IH. tauto. Qed.
  Definition draws_ok (es : list event) : Prop := forall d g, In (Open d g) es -> gen_ok H g.

  Record inv (s : state) (d : nat) : Prop := {
    i_gen : match at_ s d with Putting g | Checking g | Sealing g => gen_ok H g | _ => True end;
    i_key : match at_ s d with
            | Checking g | Sealing g => mk s d = None /\ objs s (key_object conf d) = Some (put_pair (g_pair H g))
            | Putting _ => mk s d = None
            | Unsealing => mk s d <> None
            | Opened v k => v = 0 /\ exists g, gen_ok H g /\ k = g_master g /\ mk s d = Some (sealed_file H g) /\
                               objs s (key_object conf d) = Some (put_pair (g_pair H g))
            | _ => True
            end;
    i_mk : forall f, mk s d = Some f -> exists g n, gen_ok H g /\ f = firstn n (sealed_file H g) /\
             objs s (key_object conf d) = Some (put_pair (g_pair H g))
  }.
  Lemma inv_start d : inv start d.
  Proof. split; cbn; try exact I. discriminate. Qed.

  Lemma at_goto s d c d' : at_ (goto s d c) d' = if Nat.eqb d' d then c else at_ s d'.
  Proof. reflexivity. Qed.

  (* what an event of another directory leaves alone *)
  Lemma other_step s e d : (match e with Open d' _ | Put d' _ | Get d' _ | Write d' _ | Close d' => d' <> d | _ => True end) ->
    at_ (step H conf s e) d = at_ s d /\ mk (step H conf s e) d = mk s d.
  Proof.
    intros D. destruct e as [d' g|d' r|d' r|d' n|d'|n|w b]; cbn [step].
    - destruct (idle (at_ s d')); split; try reflexivity. apply upd_other. congruence.
    - destruct (at_ s d'); try (split; reflexivity). unfold set_vault_key_for. destruct r; (split; [|reflexivity]); apply upd_other; congruence.
    - destruct (at_ s d'); try (split; reflexivity); [|split; [apply upd_other; congruence|reflexivity]].
      destruct (vault_key_for _ _ _ _ _) as [[k|]|e|]; (split; [apply upd_other; congruence|reflexivity]).
    - destruct (at_ s d'); try (split; reflexivity). split; apply upd_other; congruence.
    - split; [apply upd_other; congruence|reflexivity].
    - destruct (nth_error (late s) n) as [[w b]|]; split; reflexivity.
    - split; reflexivity.
  Qed.
  (* an event that does not touch d's object leaves it, or is d's own put *)
  Lemma object_step s e d : ~ touches s d e -> (forall r, e <> Put d r) -> objs (step H conf s e) (key_object conf d) = objs s (key_object conf d).
  Proof.
    intros T P. destruct e as [d' g|d' r|d' r|d' n|d'|n|w b]; cbn [step]; cbn [touches] in T.
    - destruct (idle (at_ s d')); reflexivity.
    - destruct (at_ s d') eqn:E; try reflexivity. assert (d' <> d) by (intros ->; apply (P r); reflexivity).
      unfold set_vault_key_for. destruct r; try reflexivity. cbn [goto objs]. apply put_other.
      fold (key_object conf d'). intros Q. apply T. split; [assumption|symmetry; exact Q].
    - destruct (at_ s d'); try reflexivity. destruct (vault_key_for _ _ _ _ _) as [[k|]|e|]; reflexivity.
    - destruct (at_ s d'); reflexivity.
    - reflexivity.
    - destruct (nth_error (late s) n) as [[w b]|] eqn:E; [|reflexivity]. cbn [objs]. apply put_other. intros <-. apply T. exists b. reflexivity.
    - cbn [objs]. apply put_other. intros <-. apply T. reflexivity.
  Qed.
  Lemma touches_other s d e : touches s d e -> match e with Open d' _ | Put d' _ | Get d' _ | Write d' _ | Close d' => d' <> d | _ => True end.
  Proof. destruct e; cbn; tauto. Qed.
  Lemma unused_not_opened s d : unused s d -> inv s d -> forall v k, at_ s d <> Opened v k.
  Proof. intros (U & _) [_ K _] v k E. rewrite E in K. destruct K as (_ & g & _ & _ & M & _). congruence. Qed.

  Lemma inv_step s e d : (forall d' g, e = Open d' g -> gen_ok H g) -> (touches s d e -> unused s d) -> inv s d -> inv (step H conf s e) d.
  Proof.
    intros G Q [I1 I2 I3].
    assert (Dec : (match e with Open d' _ | Put d' _ | Get d' _ | Write d' _ | Close d' => d' <> d | _ => True end) \/
                  (exists x, e = Open d x) \/ (exists r, e = Put d r) \/ (exists r, e = Get d r) \/ (exists n, e = Write d n) \/ e = Close d).
    { destruct e as [d' g|d' r|d' r|d' n|d'|n|w b]; try (left; exact I); destruct (Nat.eq_dec d' d) as [->|]; eauto 10. }
    destruct Dec as [O | [(x & ->) | [(r & ->) | [(r & ->) | [(n & ->) | ->]]]]].
    - destruct (other_step s e d O) as (A & M).
      assert (TT : unused s d \/ ~ touches s d e).
      { destruct e as [d' g|d' r|d' r|d' n|d'|n|w b]; try (right; cbn; tauto).
        - destruct (where_eqb (key_object conf d') (key_object conf d)) eqn:E.
          + left. apply Q. cbn. split; [exact O|apply where_eqb_spec; exact E].
          + right. cbn. intros (_ & F). apply where_eqb_spec in F. congruence.
        - destruct (nth_error (late s) n) as [[w b]|] eqn:E; [|right; cbn; rewrite E; intros (b & F); discriminate].
          destruct (where_eqb w (key_object conf d)) eqn:F.
          + left. apply Q. cbn. rewrite E. apply where_eqb_spec in F as ->. exists b. reflexivity.
          + right. cbn. rewrite E. intros (b' & [= -> ->]). rewrite (proj2 (where_eqb_spec _ _) eq_refl) in F. discriminate.
        - destruct (where_eqb w (key_object conf d)) eqn:F.
          + left. apply Q. apply where_eqb_spec. exact F.
          + right. cbn. intros ->. rewrite (proj2 (where_eqb_spec _ _) eq_refl) in F. discriminate. }
      destruct TT as [(U & V) | T].
      + split; rewrite ?A, ?M; [exact I1| |intros f; congruence]. destruct (at_ s d); try contradiction; try exact I2. destruct I2 as (_ & g & _ & _ & X & _). congruence.
      + rewrite <- (object_step s e d T) in I2, I3 by (intros r ->; cbn in O; congruence). split; rewrite ?A, ?M; assumption.
    - cbn [step]. destruct (idle (at_ s d)) eqn:E; [|split; assumption].
      split; cbn [goto at_ mk objs]; rewrite ?upd_same; [| |exact I3]; destruct (mk s d) eqn:M; try exact I; try discriminate; try reflexivity. apply (G d x). reflexivity.
    - cbn [step]. destruct (at_ s d) eqn:E; try (split; rewrite ?E; assumption).
      unfold set_vault_key_for. destruct r; (split; cbn [goto at_ mk objs]; rewrite ?upd_same; try exact I; try exact I1).
      + split; [exact I2|]. apply put_same.
      + intros f F. congruence.
      + exact I3.
      + exact I3.
    - cbn [step]. destruct (at_ s d) eqn:E; try (split; rewrite ?E; assumption).
      + destruct (vault_key_for H (objs s) (fst (conf d)) (snd (conf d)) r) as [[k|]|e|];
          try (split; cbn [goto at_ mk objs]; rewrite ?upd_same; [exact I|exact I|exact I3]).
        destruct (bytes_eqb _ _); (split; cbn [goto at_ mk objs]; rewrite ?upd_same; try exact I; try exact I3; assumption).
      + assert (X : (exists e, unseal H (mk s d) (vault_key_for H (objs s) (fst (conf d)) (snd (conf d)) r) = Failed e) \/
                    unseal H (mk s d) (vault_key_for H (objs s) (fst (conf d)) (snd (conf d)) r) = Panicked \/
                    exists g, gen_ok H g /\ mk s d = Some (sealed_file H g) /\ objs s (key_object conf d) = Some (put_pair (g_pair H g)) /\
                    unseal H (mk s d) (vault_key_for H (objs s) (fst (conf d)) (snd (conf d)) r) = Opened 0 (g_master g)).
        { destruct (mk s d) as [f|] eqn:M; [|congruence]. destruct (I3 f eq_refl) as (g & n & G1 & -> & K).
          destruct (Nat.lt_ge_cases n (length (sealed_file H g))) as [L|L].
          - left. unfold unseal. cbn [bytes_of]. rewrite (take_sealed_cut H W) by assumption. eexists. reflexivity.
          - rewrite firstn_all2 by exact L. destruct r.
            + right. right. exists g. split; [exact G1|]. split; [reflexivity|]. split; [exact K|]. apply unseal_whole; assumption.
            + left. destruct (sealed_shape H W g G1) as (enc & ct & tag & _ & E' & _ & A & B & C & D). unfold unseal. cbn [bytes_of].
              rewrite E', (take_sealed_put H) by assumption. cbn. eexists. reflexivity. }
        destruct X as [(e & ->) | [-> | (g & G1 & M & K & ->)]]; (split; cbn [goto at_ mk objs]; rewrite ?upd_same; try exact I; try exact I3).
        split; [reflexivity|]. exists g. repeat split; try assumption; apply G1.
    - cbn [step]. destruct (at_ s d) eqn:E; try (split; rewrite ?E; assumption). destruct I2 as (M & K).
      destruct (Nat.leb_spec (length (sealed_file H g)) n) as [L|L]; (split; cbn [goto at_ mk objs]; rewrite ?upd_same; try exact I).
      + split; [reflexivity|]. exists g. rewrite firstn_all2 by exact L. repeat split; try apply I1. exact K.
      + intros f [= <-]. exists g, n. repeat split; try assumption; apply I1.
      + intros f [= <-]. exists g, n. repeat split; try assumption; apply I1.
    - cbn [step]. split; cbn [goto at_ mk objs]; rewrite ?upd_same; [exact I|exact I|exact I3].
  Qed.
  Lemma inv_run d es : forall s, draws_ok es -> quiet d s es -> inv s d -> inv (run H conf s es) d.
  Proof.
    induction es as [|e es IH]; intros s G Q I; [exact I|]. destruct Q as (Q1 & Q2). cbn [run]. apply IH.
    - intros d' g X. apply (G d'). right. exact X.
    - exact Q2.
    - apply inv_step; [|exact Q1|exact I]. intros d' g ->. apply (G d'). left. reflexivity.
  Qed.
  (* master-keys is written once *)
  Lemma mk_step s e d f : inv s d -> mk s d = Some f -> mk (step H conf s e) d = Some f.
  Proof.
    intros [_ I2 _] M. destruct e as [d' g|d' r|d' r|d' n|d'|n|w b]; cbn [step].
    - destruct (idle (at_ s d')); exact M.
    - destruct (at_ s d'); try exact M. unfold set_vault_key_for. destruct r; exact M.
    - destruct (at_ s d'); try exact M. destruct (vault_key_for _ _ _ _ _) as [[k|]|e|]; exact M.
    - destruct (at_ s d') eqn:E; try exact M. cbn [goto mk]. destruct (Nat.eq_dec d' d) as [->|N]; [|rewrite upd_other by congruence; exact M].
      rewrite E in I2. destruct I2 as (X & _). congruence.
    - exact M.
    - destruct (nth_error (late s) n) as [[w b]|]; exact M.
    - exact M.
  Qed.
  Lemma mk_run d f es : forall s, draws_ok es -> quiet d s es -> inv s d -> mk s d = Some f -> mk (run H conf s es) d = Some f.
  Proof.
    induction es as [|e es IH]; intros s G Q I M; [exact M|]. destruct Q as (Q1 & Q2). cbn [run]. apply IH.
    - intros d' g X. apply (G d'). right. exact X.
    - exact Q2.
    - apply inv_step; [|exact Q1|exact I]. intros d' g ->. apply (G d'). left. reflexivity.
    - apply mk_step; assumption.
  Qed.
  Lemma mk_object_run d f es : forall s, draws_ok es -> quiet d s es -> inv s d -> mk s d = Some f ->
    objs (run H conf s es) (key_object conf d) = objs s (key_object conf d).
  Proof.
    induction es as [|e es IH]; intros s G Q I M; [reflexivity|]. destruct Q as (Q1 & Q2). cbn [run].
    assert (G1 : forall d' g, e = Open d' g -> gen_ok H g) by (intros d' g ->; apply (G d'); left; reflexivity).
    rewrite IH; [| |exact Q2|apply inv_step; assumption|apply mk_step; assumption].
    - assert (T : ~ touches s d e) by (intros T; destruct (Q1 T) as (U & _); congruence).
      destruct e as [d' g|d' r|d' r|d' n|d'|n|w b]; try (apply object_step; [exact T|discriminate]).
      destruct (Nat.eq_dec d' d) as [->|N]; [|apply object_step; [exact T|congruence]].
      cbn [step]. destruct (at_ s d) eqn:E; try reflexivity. destruct I as [_ I2 _]. rewrite E in I2. congruence.
    - intros d' g X. apply (G d'). right. exact X.
  Qed.
End H.
