(* Facts about reading and seeking (Contents in Files.v). *)
From Verif Require Import Base Key KeyProofs Files FilesProofs.
From Coq Require Import Permutation Sorted ZifyBool.
Local Open Scope nat_scope.

(* the block list [l] describes the data [ds], starting at offset o *)
Inductive laid : nat -> list block_info -> list bytes -> Prop :=
| laid_nil o : laid o [] []
| laid_cons o b r d ds : bi_offset b = o -> bi_length b = length d -> 0 < length d -> laid (o + length d) r ds -> laid o (b :: r) (d :: ds).
(* the blocks are stored in the database *)
Definition stored (db : fdb) (l : list block_info) (ds : list bytes) : Prop :=
  Forall2 (fun b d => exists c, lookup (bi_id b) (blocks db) = Some c /\ firstn (length c - 12) c = d) l ds /\
  StronglySorted (fun a b => (bi_id a < bi_id b)%N) l.

Lemma laid_length o l ds : laid o l ds -> length l = length ds.
Proof. induction 1; cbn; lia. Qed.
Lemma laid_nonempty o l ds : laid o l ds -> Forall (fun d => 0 < length d) ds.
Proof. induction 1; constructor; assumption. Qed.
Lemma laid_nth o l ds i b : laid o l ds -> nth_error l i = Some b ->
  exists d, nth_error ds i = Some d /\ bi_offset b = o + length (concat (firstn i ds)) /\ bi_length b = length d /\ 0 < length d.
Proof.
  intros L. revert i; induction L as [|o b' r d ds E1 E2 E3 L IH]; intros [|i]; cbn; try discriminate.
  - intros [= <-]. exists d. repeat split; try assumption. lia.
  - intros H. destruct (IH _ H) as (d' & A & B & C & D). exists d'. rewrite app_length. repeat split; try assumption. lia.
Qed.
Lemma laid_skipn o l ds i : laid o l ds -> laid (o + length (concat (firstn i ds))) (skipn i l) (skipn i ds).
Proof.
  intros L. revert i; induction L as [|o b' r d ds E1 E2 E3 L IH]; intros [|i]; cbn; rewrite ?Nat.add_0_r.
  - constructor.
  - constructor.
  - constructor; assumption.
  - rewrite app_length, Nat.add_assoc. apply IH.
Qed.
Lemma last_some {A} (l : list A) : last (map Some l) None = match l with [] => None | _ => nth_error l (length l - 1) end.
Proof.
  destruct l as [|x r _] using rev_ind; [reflexivity|]. rewrite map_app. cbn. rewrite last_last, app_length. cbn.
  replace (length r + 1 - 1) with (length r) by lia. rewrite nth_error_app2, Nat.sub_diag by lia. cbn. destruct r; reflexivity.
Qed.
Lemma concat_split i (ds : list bytes) : concat ds = concat (firstn i ds) ++ concat (skipn i ds).
Proof. rewrite <- concat_app, firstn_skipn. reflexivity. Qed.
Lemma laid_len l ds c : laid 0 l ds -> c_blocks c = l -> contents_len c = length (concat ds).
Proof.
  intros L E. unfold contents_len. rewrite E, last_some. destruct l as [|b r] eqn:El; [inversion L; reflexivity|]. rewrite <- El in *.
  destruct (nth_error l (length l - 1)) as [x|] eqn:N; [|apply nth_error_None in N; subst l; cbn in N; lia].
  destruct (laid_nth _ _ _ _ _ L N) as (d & Nd & O & Le & _). rewrite O, Le. cbn [plus].
  pose proof (laid_length _ _ _ L) as LL. rewrite LL in Nd |- *.
  assert (CS := concat_split (length ds - 1) ds). rewrite CS, app_length. clear CS. f_equal.
  destruct ds as [|y ds' _] using rev_ind; [discriminate|]. rewrite app_length in *. cbn [length] in *. replace (length ds' + 1 - 1) with (length ds') in * by lia.
  rewrite nth_error_app2, Nat.sub_diag in Nd by lia. cbn in Nd. injection Nd as ->. rewrite skipn_app, skipn_all, Nat.sub_diag. cbn. rewrite app_nil_r. reflexivity.
Qed.

(* ---------- the state ---------- *)
Definition here (c : contents) (ds : list bytes) : nat := length (concat (firstn (c_current c) ds)) + c_offset c.
Record ok (c : contents) (ds : list bytes) : Prop := {
  ok_laid : laid 0 (c_blocks c) ds;
  ok_loaded : exists i k, c_loaded c = number_from i (firstn k (skipn i ds));
  ok_pos : c_current c < length ds /\ (exists d, nth_error ds (c_current c) = Some d /\ c_offset c <= length d) \/
           c_current c = length ds /\ c_offset c = 0
}.
Lemma skipn_nth {A} (l : list A) i x : nth_error l i = Some x -> skipn i l = x :: skipn (S i) l.
Proof. revert i; induction l as [|y r IH]; intros [|i]; cbn; try discriminate; [intros [= ->]; reflexivity|apply IH]. Qed.
Lemma firstn_S_nth {A} (l : list A) i x : nth_error l i = Some x -> firstn (S i) l = firstn i l ++ [x].
Proof. revert i; induction l as [|y r IH]; intros [|i]; cbn; try discriminate; [intros [= ->]; reflexivity|]. intros H. rewrite <- (IH _ H). reflexivity. Qed.
Lemma content_at (ds : list bytes) i d off : nth_error ds i = Some d -> off <= length d ->
  skipn (length (concat (firstn i ds)) + off) (concat ds) = skipn off d ++ concat (skipn (S i) ds).
Proof.
  intros N L. rewrite (concat_split i ds) at 1. rewrite (skipn_nth _ _ _ N). cbn [concat].
  rewrite skipn_app. rewrite skipn_all2 by lia. cbn [app].
  replace (length (concat (firstn i ds)) + off - length (concat (firstn i ds))) with off by lia. rewrite skipn_app.
  replace (off - length d) with 0 by lia. reflexivity.
Qed.
Lemma here_le c ds : ok c ds -> here c ds <= length (concat ds).
Proof.
  intros K. unfold here. destruct (ok_pos _ _ K) as [(L & d & N & O)|(E & ->)].
  - rewrite (concat_split (c_current c) ds), (skipn_nth _ _ _ N), app_length. cbn. rewrite app_length. lia.
  - rewrite E, firstn_all. lia.
Qed.
Lemma here_end c ds : ok c ds -> c_current c < length ds -> here c ds = length (concat ds) ->
  c_current c + 1 = length ds /\ exists d, nth_error ds (c_current c) = Some d /\ c_offset c = length d.
Proof.
  intros K L E. destruct (ok_pos _ _ K) as [(_ & d & N & O)|(E' & _)]; [|lia].
  assert (X := content_at _ _ _ _ N O). fold (here c ds) in X. rewrite E, skipn_all in X. symmetry in X. apply app_eq_nil in X as (X1 & X2).
  split.
  - destruct (skipn (S (c_current c)) ds) as [|y r] eqn:SK; [assert (length (skipn (S (c_current c)) ds) = 0) by (rewrite SK; reflexivity); rewrite skipn_length in H; lia|].
    exfalso. pose proof (laid_nonempty _ _ _ (ok_laid _ _ K)) as F. rewrite <- (firstn_skipn (S (c_current c)) ds), SK in F. apply Forall_app in F as (_ & F). inversion F; subst.
    cbn in X2. apply app_eq_nil in X2 as (-> & _). cbn in H1. lia.
  - exists d. split; [exact N|]. assert (length (skipn (c_offset c) d) = 0) by (rewrite X1; reflexivity). rewrite skipn_length in H. lia.
Qed.
Lemma more_spec c ds : ok c ds -> more c = (c_current c <? length ds).
Proof.
  intros K. unfold more. pose proof (laid_length _ _ _ (ok_laid _ _ K)) as L. rewrite L. destruct (Nat.ltb_spec (c_current c) (length ds)); [reflexivity|].
  cbn [orb]. destruct (Nat.eqb_spec (c_current c + 1) (length ds)); [lia|reflexivity].
Qed.

(* ---------- consume ---------- *)
Lemma consume_spec n : 0 < n -> forall bs cur off, Forall (fun d => 0 < length d) bs -> (forall b r, bs = b :: r -> off <= length b) ->
  exists dropped bs' off' r, consume n (number_from cur bs) cur off = Some (number_from (cur + length dropped) bs', cur + length dropped, off', r) /\
   bs = dropped ++ bs' /\
   match r with
   | Some out => exists b rest o, bs' = b :: rest /\ o <= length b /\ out = firstn n (skipn o b) /\ out <> [] /\ off' = o + length out /\
        (dropped = [] /\ o = off \/ o = 0 /\ length (concat dropped) = off /\ exists x, dropped = [x] /\ off = length x)
   | None => bs' = [] /\ (dropped = [] /\ off' = off \/ off' = 0 /\ exists x, dropped = [x] /\ off = length x)
   end.
Proof.
  intros Hn bs. destruct bs as [|b r]; intros cur off F O.
  - exists [], [], off, None. cbn. rewrite Nat.add_0_r. repeat split. left. split; reflexivity.
  - specialize (O b r eq_refl). inversion F as [|? ? Fb Fr]; subst. cbn [number_from consume].
    destruct (Nat.ltb_spec (length b) off); [lia|].
    destruct (firstn n (skipn off b)) as [|x out] eqn:E.
    + assert (Eo : off = length b).
      { assert (length (firstn n (skipn off b)) = 0) by (rewrite E; reflexivity). rewrite firstn_length, skipn_length in H0. lia. }
      destruct r as [|b2 r2].
      * exists [b], [], 0, None. cbn. rewrite Nat.add_1_r. repeat split. right. split; [reflexivity|]. exists b. split; [reflexivity|exact Eo].
      * inversion Fr as [|? ? Fb2 Fr2]; subst. cbn [number_from consume length]. destruct (Nat.ltb_spec (length b2) 0); [lia|]. cbn [skipn].
        destruct (firstn n b2) as [|y out2] eqn:E2; [assert (length (firstn n b2) = 0) by (rewrite E2; reflexivity); rewrite firstn_length in H1; lia|].
        exists [b], (b2 :: r2), (length (y :: out2)), (Some (y :: out2)). cbn [length app]. rewrite Nat.add_1_r. repeat split.
        exists b2, r2, 0. cbn [skipn]. rewrite E2. repeat split; try lia; try discriminate. right. cbn. rewrite app_nil_r. repeat split. exists b. split; reflexivity.
    + exists [], (b :: r), (off + length (x :: out)), (Some (x :: out)). cbn [length app]. rewrite Nat.add_0_r. cbn [number_from]. repeat split.
      exists b, r, off. rewrite E. repeat split; try lia; try discriminate. left. split; reflexivity.
Qed.

Definition at_front (c : contents) : Prop := exists b r, c_loaded c = (c_current c, b) :: r.
Lemma number_from_hd i l x b r : number_from i l = (x, b) :: r -> i = x /\ exists l', l = b :: l' /\ r = number_from (S i) l'.
Proof. destruct l; cbn; [discriminate|]. intros [= -> -> <-]. split; [reflexivity|]. exists l. split; reflexivity. Qed.
Lemma firstn_split {A} k (l a b : list A) : firstn k l = a ++ b -> b = firstn (k - length a) (skipn (length a) l).
Proof.
  revert k l; induction a as [|x a IH]; intros k l H; cbn in *.
  - rewrite Nat.sub_0_r. congruence.
  - destruct k as [|k]; [discriminate|]. destruct l as [|y l]; [discriminate|]. cbn in H. injection H as -> H. cbn. apply IH, H.
Qed.
Lemma skipn_skipn' {A} a b (l : list A) : skipn a (skipn b l) = skipn (b + a) l.
Proof. revert l; induction b as [|b IH]; intros l; cbn; [reflexivity|]. destruct l; [destruct a; reflexivity|apply IH]. Qed.
Lemma firstn_self {A} n (l r : list A) : firstn (length (firstn n l)) (l ++ r) = firstn n l.
Proof.
  rewrite firstn_length. rewrite firstn_app. replace (Nat.min n (length l) - length l) with 0 by lia. cbn. rewrite app_nil_r.
  destruct (Nat.le_ge_cases n (length l)); [rewrite Nat.min_l by lia; reflexivity|]. rewrite Nat.min_r by lia. rewrite firstn_all, firstn_all2 by lia. reflexivity.
Qed.

Lemma nb_read_spec n c ds : 0 < n -> ok c ds ->
  exists c' r, non_blocking_read n c = Some (c', r) /\ ok c' ds /\ c_blocks c' = c_blocks c /\ c_buffer c' = c_buffer c /\
  match r with
  | ReadBytes out => out <> [] /\ length out <= n /\ out = firstn (length out) (skipn (here c ds) (concat ds)) /\ here c' ds = here c ds + length out
  | Eof => here c ds = length (concat ds) /\ here c' ds = here c ds /\ c_current c' = length ds
  | NeedBlocks => here c' ds = here c ds /\ c_current c' < length ds /\ (at_front c -> c_offset c' = 0 /\ here c ds < length (concat ds)) /\ (~ at_front c -> c' = c)
  end.
Proof.
  intros Hn K. unfold non_blocking_read. pose proof (more_spec _ _ K) as M.
  destruct (match c_loaded c with [] => true | (i, _) :: _ => negb (i =? c_current c) end) eqn:Need.
  - assert (NF : ~ at_front c) by (intros (b & r & E); rewrite E, Nat.eqb_refl in Need; discriminate).
    exists c. rewrite M. destruct (Nat.ltb_spec (c_current c) (length ds)).
    + eexists. repeat split; try reflexivity; try assumption; try tauto; apply K.
    + eexists. split; [reflexivity|]. repeat split; try apply K.
      * unfold here. destruct (ok_pos _ _ K) as [(L & _)|(E & O)]; [lia|]. rewrite E, firstn_all. lia.
      * destruct (ok_pos _ _ K) as [(L & _)|(E & O)]; [lia|exact E].
  - destruct (ok_loaded _ _ K) as (i & k & EL). rewrite EL in *.
    destruct (number_from i (firstn k (skipn i ds))) as [|[x b0] r0] eqn:EN; [discriminate|].
    apply negb_false_iff, Nat.eqb_eq in Need. subst x. destruct (number_from_hd _ _ _ _ _ EN) as (-> & l' & EF & _). rewrite <- EN.
    set (cur := c_current c) in *.
    pose proof (laid_nonempty _ _ _ (ok_laid _ _ K)) as FN.
    assert (EF' : exists k', k = S k' /\ nth_error ds cur = Some b0 /\ l' = firstn k' (skipn (S cur) ds)).
    { destruct k as [|k']; [discriminate|]. exists k'. split; [reflexivity|]. destruct (skipn cur ds) as [|y s] eqn:SK; [discriminate|]. cbn in EF. injection EF as -> <-.
      assert (Nth : nth_error ds cur = Some b0).
      { rewrite <- (firstn_skipn cur ds), SK. assert (cur <= length ds) by (destruct (Nat.le_gt_cases cur (length ds)); [assumption|rewrite skipn_all2 in SK by lia; discriminate]).
        rewrite nth_error_app2 by (rewrite firstn_length; lia). rewrite firstn_length, Nat.min_l, Nat.sub_diag by lia. reflexivity. }
      split; [exact Nth|]. rewrite (skipn_nth _ _ _ Nth) in SK. injection SK as <-. reflexivity. }
    destruct EF' as (k' & -> & Nth & El').
    assert (OB : c_offset c <= length b0).
    { destruct (ok_pos _ _ K) as [(_ & d & N & O)|(E & _)]; [fold cur in N;rewrite N in Nth; injection Nth as ->; exact O|]. fold cur in E. assert (cur < length ds) by (apply nth_error_Some; congruence); lia. }
    assert (LC : cur < length ds) by (apply nth_error_Some; congruence).
    destruct (consume_spec n Hn (firstn (S k') (skipn cur ds)) cur (c_offset c)) as (dr & bs' & off' & r & EC & ES & D).
    { rewrite <- (firstn_skipn cur ds) in FN. apply Forall_app in FN as (_ & FN). rewrite Forall_forall in *. intros y Hy. apply FN. rewrite <- (firstn_skipn (S k') (skipn cur ds)). apply in_app_iff. left. exact Hy. }
    { intros b r1 E. rewrite E in EF. injection EF as -> _. exact OB. }
    rewrite EC. pose proof (firstn_split _ _ _ _ ES : @eq (list bytes) _ (@firstn bytes _ _)) as EB. change (list N) with bytes in EB. rewrite skipn_skipn' in EB.
    assert (AF : at_front c) by (exists b0, r0; exact EL).
    destruct r as [out|].
    + destruct D as (b & rest & o & Ebs & Ob & Eo & No & Eoff & Cases).
      eexists _, (ReadBytes out). split; [reflexivity|].
      assert (Nb : nth_error ds (cur + length dr) = Some b).
      { destruct (skipn (cur + length dr) ds) as [|y s] eqn:SK; [rewrite firstn_nil in EB; congruence|].
        assert (y = b) by (destruct (S k' - length dr); cbn in EB; congruence). subst y.
        assert (cur + length dr < length ds) by (destruct (Nat.lt_ge_cases (cur + length dr) (length ds)); [assumption|rewrite skipn_all2 in SK by lia; discriminate]).
        destruct (nth_error ds (cur + length dr)) as [z|] eqn:Nz; [|apply nth_error_None in Nz; lia]. rewrite (skipn_nth _ _ _ Nz) in SK. congruence. }
      assert (Lout : length out <= n) by (rewrite Eo, firstn_length; lia).
      assert (Lob : o + length out <= length b) by (rewrite Eo, firstn_length, skipn_length; lia).
      assert (HP : here c ds = length (concat (firstn (cur + length dr) ds)) + o).
      { unfold here. fold cur. destruct Cases as [(-> & ->)|(-> & L & x & -> & Ex)]; cbn [length].
        - rewrite Nat.add_0_r. reflexivity.
        - assert (x = b0) by (destruct (skipn cur ds); [discriminate|]; cbn in ES; injection ES as -> _; cbn in EF; congruence). subst x.
          rewrite Nat.add_1_r, (firstn_S_nth _ _ _ Nth), concat_app, app_length. cbn. rewrite app_nil_r. lia. }
      split; [constructor; cbn|].
      * apply K.
      * exists (cur + length dr), (S k' - length dr). rewrite <- EB. reflexivity.
      * left. split; [apply nth_error_Some; congruence|]. exists b. split; [exact Nb|lia].
      * repeat split; try assumption.
        -- rewrite HP. rewrite (content_at _ _ _ _ Nb) by lia. rewrite Eo at 1 2. symmetry. apply firstn_self.
        -- rewrite HP. unfold here. cbn [c_current c_offset]. lia.
    + destruct D as (-> & Cases). rewrite app_nil_r in ES.
      assert (C1 : exists x, dr = [x] /\ c_offset c = length x /\ off' = 0).
      { destruct Cases as [(-> & _)|(-> & x & -> & E)]; [rewrite EF in ES; discriminate|]. exists x. repeat split. exact E. }
      destruct C1 as (x & -> & Ex & ->). rewrite EF in ES. injection ES as -> El. cbn [length]. rewrite Nat.add_1_r.
      cbn [number_from].
      set (c' := Contents (c_blocks c) [] (S cur) 0 (c_buffer c)).
      assert (K' : ok c' ds).
      { constructor; cbn; [apply K|exists 0, 0; reflexivity|]. destruct (Nat.lt_ge_cases (S cur) (length ds)) as [L|L]; [left|right; lia].
        split; [exact L|]. destruct (nth_error ds (S cur)) as [d|] eqn:N; [|apply nth_error_None in N; lia]. exists d. split; [first [exact N|reflexivity]|lia]. }
      assert (HP : here c' ds = here c ds).
      { unfold here, c'. cbn [c_current c_offset]. rewrite (firstn_S_nth _ _ _ Nth), concat_app, app_length. cbn. rewrite app_nil_r. fold cur. lia. }
      exists c'. rewrite (more_spec _ _ K'). cbn [c_current]. destruct (Nat.ltb_spec (c_current c') (length ds)) as [L|L].
      * eexists. split; [reflexivity|]. split; [exact K'|]. split; [reflexivity|]. split; [reflexivity|]. split; [exact HP|]. split; [exact L|]. split; [|tauto].
        intros _. split; [reflexivity|]. rewrite <- HP. pose proof (here_le _ _ K'). destruct (Nat.eq_dec (here c' ds) (length (concat ds))) as [E|]; [|lia].
        destruct (here_end _ _ K' L E) as (_ & d & N & O). cbn in O. exfalso. pose proof (laid_nonempty _ _ _ (ok_laid _ _ K)) as FN'. rewrite Forall_forall in FN'. apply nth_error_In in N. specialize (FN' _ N). lia.
      * eexists. split; [reflexivity|]. split; [exact K'|]. split; [reflexivity|]. split; [reflexivity|].
        assert (X : here c' ds = length (concat ds)) by (destruct (ok_pos _ _ K') as [(L' & _)|(E & O)]; [lia|]; unfold here; rewrite E, O, firstn_all; lia).
        split; [lia|]. split; [exact HP|]. destruct (ok_pos _ _ K') as [(L' & _)|(E & O)]; [lia|exact E].
Qed.

(* ---------- loading ---------- *)
Lemma insert_loaded_sorted p l : StronglySorted (fun a b => (fst a < fst b)%N) (p :: l) -> insert_loaded p l = p :: l.
Proof. intros S. destruct l as [|q r]; [reflexivity|]. cbn. inversion S; subst. inversion H2; subst. cbn in H3. replace (fst p <=? fst q)%N with true by lia. reflexivity. Qed.
Lemma load_spec db l ds : stored db l ds -> map snd (load (map bi_id l) db) = ds.
Proof.
  intros (F & S). unfold load.
  assert (E : exists ps, flat_map (fun id => match lookup id (blocks db) with Some b => [(id, firstn (length b - 12) b)] | None => [] end) (map bi_id l) = ps /\
     map fst ps = map bi_id l /\ map snd ps = ds).
  { clear S. induction F as [|b d l ds (c & L & P) F IH]; [exists []; repeat split|]. destruct IH as (ps & E1 & E2 & E3). eexists. split; [reflexivity|]. cbn. rewrite L, E1. cbn. rewrite E2, E3, P. split; reflexivity. }
  destruct E as (ps & -> & E2 & E3). rewrite <- E3.
  assert (S' : StronglySorted (fun a b => (fst a < fst b)%N) ps).
  { apply (proj1 (sorted_map N.lt fst ps)). rewrite E2. apply sorted_map. exact S. }
  f_equal. clear - S'. induction S' as [|p l S' IH F]; [reflexivity|]. cbn. rewrite IH. apply insert_loaded_sorted. constructor; assumption.
Qed.
Lemma stored_sub db l ds i k : stored db l ds -> stored db (firstn k (skipn i l)) (firstn k (skipn i ds)).
Proof.
  intros (F & S). split.
  - revert i k; induction F as [|b d l ds H F IH]; intros i k; [rewrite !skipn_nil, !firstn_nil; constructor|].
    inversion S; subst. destruct i; cbn; [|apply IH; assumption]. destruct k; cbn; constructor; [exact H|]. specialize (IH H2 0 k). cbn in IH. exact IH.
  - assert (SK : forall l' j, StronglySorted (fun a b => (bi_id a < bi_id b)%N) l' -> StronglySorted (fun a b => (bi_id a < bi_id b)%N) (skipn j l')).
    { clear. intros l' j S. revert j; induction S; intros [|j]; cbn; try constructor; auto. }
    specialize (SK _ i S). clear -SK. revert k; induction SK as [|b r S IH F]; intros [|k]; cbn; constructor; [apply IH|].
    rewrite Forall_forall in *. intros x Hx. apply F. rewrite <- (firstn_skipn k r). apply in_app_iff. tauto.
Qed.
Lemma load_blocks_spec db c ds : ok c ds -> stored db (c_blocks c) ds -> c_current c < length ds ->
  ok (load_blocks db c) ds /\ at_front (load_blocks db c) /\ here (load_blocks db c) ds = here c ds /\
  c_current (load_blocks db c) = c_current c /\ c_offset (load_blocks db c) = c_offset c /\ c_blocks (load_blocks db c) = c_blocks c /\ c_buffer (load_blocks db c) = c_buffer c.
Proof.
  intros K St L. unfold load_blocks, next_blocks. set (m := Nat.max 1 _).
  rewrite (load_spec db _ _ (stored_sub _ _ _ (c_current c) m St)).
  split; [|split; [|repeat split]].
  - constructor; cbn; [apply K|exists (c_current c), m; reflexivity|apply K].
  - destruct (nth_error ds (c_current c)) as [d|] eqn:N; [|apply nth_error_None in N; lia]. rewrite (skipn_nth _ _ _ N).
    destruct m as [|m'] eqn:E; [lia|]. exists d. eexists. cbn. reflexivity.
Qed.

(* ---------- read ---------- *)
Definition reads (ds : list bytes) (p n : nat) (out : bytes) : Prop :=
  out = firstn (length out) (skipn p (concat ds)) /\ length out <= n /\ (out = [] <-> p = length (concat ds)).
Lemma read_more db ds n : 0 < n -> forall (fuel : nat) c, ok c ds -> stored db (c_blocks c) ds -> at_front c -> here c ds < length (concat ds) -> c_offset c = 0 ->
  c_current c < length ds -> exists c' out, non_blocking_read n c = Some (c', ReadBytes out).
Proof.
  intros Hn _ c K St AF H O L. destruct (nb_read_spec n c ds Hn K) as (c' & r & E & K' & _ & _ & D). destruct r as [|out|].
  - exfalso. unfold non_blocking_read in E. destruct AF as (b & r & EL). rewrite EL in E. rewrite Nat.eqb_refl in E. cbn [negb] in E.
    destruct (ok_loaded _ _ K) as (i & k & EN). rewrite EL in EN. symmetry in EN. destruct (number_from_hd _ _ _ _ _ EN) as (-> & l' & EF & ->).
    assert (Nb : 0 < length b).
    { pose proof (laid_nonempty _ _ _ (ok_laid _ _ K)) as F. rewrite Forall_forall in F. apply F.
      rewrite <- (firstn_skipn (c_current c) ds). apply in_app_iff. right. rewrite <- (firstn_skipn k (skipn (c_current c) ds)), EF. left. reflexivity. }
    rewrite O in E. cbn [consume] in E. destruct (Nat.ltb_spec (length b) 0); [lia|]. cbn [skipn] in E.
    destruct (firstn n b) eqn:X; [assert (length (firstn n b) = 0) by (rewrite X; reflexivity); rewrite firstn_length in *; lia|]. discriminate.
  - exists c', out. exact E.
  - destruct D as (D & _). lia.
Qed.
Lemma read_spec db ds n fuel c : 0 < n -> 3 <= fuel -> ok c ds -> stored db (c_blocks c) ds ->
  exists c' out, read fuel n db c = Done (Some (c', out)) /\ ok c' ds /\ c_blocks c' = c_blocks c /\ c_buffer c' = c_buffer c /\
    reads ds (here c ds) n out /\ here c' ds = here c ds + length out /\ (out = [] -> c_current c' = length ds).
Proof.
  intros Hn Hf K St.
  (* finishing from a state with the right block in front *)
  assert (F1 : forall fuel c1, 1 <= fuel -> ok c1 ds -> stored db (c_blocks c1) ds -> at_front c1 -> c_offset c1 = 0 -> here c1 ds < length (concat ds) -> c_current c1 < length ds ->
    exists c' out, read fuel n db c1 = Done (Some (c', out)) /\ ok c' ds /\ c_blocks c' = c_blocks c1 /\ c_buffer c' = c_buffer c1 /\
    reads ds (here c1 ds) n out /\ here c' ds = here c1 ds + length out /\ (out = [] -> c_current c' = length ds)).
  { intros f c1 Hf1 K1 S1 A1 O1 H1 L1. destruct (read_more db ds n Hn 0 c1 K1 S1 A1 H1 O1 L1) as (c2 & out & E).
    destruct (nb_read_spec n c1 ds Hn K1) as (c3 & r & E' & K3 & B3 & B4 & D). rewrite E in E'. injection E' as <- <-. destruct D as (D1 & D2 & D3 & D4).
    destruct f; [lia|]. cbn [read]. rewrite E. exists c2, out. split; [reflexivity|]. split; [assumption|]. split; [assumption|]. split; [assumption|]. split; [split; [exact D3|split; [exact D2|split]]|split; [exact D4|]].
    - intros ->. congruence.
    - intros X. lia.
    - intros ->. congruence. }
  destruct fuel as [|f1]; [lia|]. cbn [read]. destruct (nb_read_spec n c ds Hn K) as (c1 & r & E & K1 & B1 & B2 & D). rewrite E. destruct r as [|out|].
  - destruct D as (D1 & D2 & D3 & D4).
    assert (St1 : stored db (c_blocks c1) ds) by (rewrite B1; exact St).
    destruct (load_blocks_spec db c1 ds K1 St1 D2) as (K2 & A2 & H2 & C2 & O2 & BB2 & BF2). set (c2 := load_blocks db c1) in *.
    assert (St2 : stored db (c_blocks c2) ds) by (rewrite BB2; exact St1).
    assert (AF : at_front c \/ ~ at_front c).
    { unfold at_front. destruct (c_loaded c) as [|[x b] r]; [right; intros (? & ? & ?); discriminate|]. destruct (Nat.eq_dec x (c_current c)) as [->|N]; [left; exists b, r; reflexivity|right; intros (? & ? & [= ? ? ?]); congruence]. }
    destruct AF as [AF|NAF].
    + destruct (D3 AF) as (O1 & HL). destruct (F1 f1 c2) as (c' & out & R1 & R2 & R3 & R4 & R5 & R6 & R7); try assumption; try lia.
      exists c', out. rewrite R1. split; [reflexivity|]. split; [assumption|]. split; [congruence|]. split; [congruence|].
      rewrite H2, D1 in R5, R6. repeat split; try apply R5; assumption.
    + specialize (D4 NAF). subst c1. destruct f1 as [|f2]; [lia|]. cbn [read].
      destruct (nb_read_spec n c2 ds Hn K2) as (c3 & r & E3 & K3 & B3 & B4 & D). rewrite E3. destruct r as [|out|].
      * destruct D as (D1' & D2' & D3' & D4'). destruct (D3' A2) as (O3 & HL).
        assert (St3 : stored db (c_blocks c3) ds) by (rewrite B3; exact St2).
        destruct (load_blocks_spec db c3 ds K3 St3 D2') as (K4 & A4 & H4 & C4 & O4 & BB4 & BF4).
        destruct (F1 f2 (load_blocks db c3)) as (c' & out & R1 & R2 & R3 & R4 & R5 & R6 & R7); try assumption; try lia.
        exists c', out. rewrite R1. split; [reflexivity|]. split; [assumption|]. split; [congruence|]. split; [congruence|].
        rewrite H4, D1', H2 in R5, R6. repeat split; try apply R5; assumption.
      * destruct D as (D1' & D2' & D3' & D4'). exists c3, out. split; [reflexivity|]. split; [assumption|]. split; [congruence|]. split; [congruence|]. rewrite H2 in D3', D4'.
        split; [|split; [exact D4'|intros ->; congruence]]. split; [exact D3'|]. split; [exact D2'|]. split; [intros ->; congruence|]. intros X. exfalso. apply D1'. rewrite D3', X, skipn_all, firstn_nil. reflexivity.
      * destruct D as (D1' & D2' & D3'). exists c3, []. split; [reflexivity|]. split; [assumption|]. split; [congruence|]. split; [congruence|]. rewrite H2 in D1', D2'. cbn [length]. split; [split; [reflexivity|split; [cbn; lia|tauto]]|split; [lia|tauto]].
  - destruct D as (D1' & D2' & D3' & D4'). exists c1, out. split; [reflexivity|]. split; [assumption|]. split; [congruence|]. split; [congruence|].
    split; [|split; [exact D4'|intros ->; congruence]]. split; [exact D3'|]. split; [exact D2'|]. split; [intros ->; congruence|]. intros X. exfalso. apply D1'. rewrite D3', X, skipn_all, firstn_nil. reflexivity.
  - destruct D as (D1' & D2' & D3'). exists c1, []. split; [reflexivity|]. split; [assumption|]. split; [congruence|]. split; [congruence|]. cbn [length]. split; [split; [reflexivity|split; [cbn; lia|tauto]]|split; [lia|tauto]].
Qed.

(* ---------- the block iterator ---------- *)
Lemma next_block_spec db ds fuel c : 2 <= fuel -> ok c ds -> stored db (c_blocks c) ds ->
  exists c' out, next_block fuel db c = Done (Some (c', out)) /\ ok c' ds /\ c_blocks c' = c_blocks c /\ c_buffer c' = c_buffer c /\
  match out with
  | Some l => l = firstn (length l) (skipn (here c ds) (concat ds)) /\ here c' ds = here c ds + length l
  | None => here c ds = length (concat ds) /\ here c' ds = here c ds
  end /\ (out = None <-> c_current c = length ds).
Proof.
  intros Hf K St.
  assert (F1 : forall fuel c1, 1 <= fuel -> ok c1 ds -> at_front c1 -> 
    exists c' l, next_block fuel db c1 = Done (Some (c', Some l)) /\ ok c' ds /\ c_blocks c' = c_blocks c1 /\ c_buffer c' = c_buffer c1 /\
      l = firstn (length l) (skipn (here c1 ds) (concat ds)) /\ here c' ds = here c1 ds + length l).
  { intros f c1 Hf1 K1 (b & r & EL). destruct f; [lia|]. cbn [next_block]. unfold read_block. rewrite EL, Nat.eqb_refl.
    destruct (ok_loaded _ _ K1) as (i & k & EN). rewrite EL in EN. symmetry in EN. destruct (number_from_hd _ _ _ _ _ EN) as (-> & l' & EF & ->).
    assert (Nth : nth_error ds (c_current c1) = Some b).
    { destruct k; [discriminate|]. destruct (skipn (c_current c1) ds) as [|y s] eqn:SK; [discriminate|]. cbn in EF. injection EF as -> _.
      assert (c_current c1 < length ds) by (destruct (Nat.lt_ge_cases (c_current c1) (length ds)); [assumption|rewrite skipn_all2 in SK by lia; discriminate]).
      destruct (nth_error ds (c_current c1)) as [z|] eqn:Nz; [|apply nth_error_None in Nz; lia]. rewrite (skipn_nth _ _ _ Nz) in SK. congruence. }
    assert (OB : c_offset c1 <= length b).
    { destruct (ok_pos _ _ K1) as [(_ & d & N & O)|(E & _)]; [rewrite N in Nth; injection Nth as ->; exact O|]. assert (c_current c1 < length ds) by (apply nth_error_Some; congruence). lia. }
    destruct (Nat.ltb_spec (length b) (c_offset c1)); [lia|].
    eexists _, (skipn (c_offset c1) b). split; [reflexivity|]. split; [constructor; cbn|].
    - apply K1.
    - exists (S (c_current c1)), (k - 1). f_equal. pose proof (firstn_split k (skipn (c_current c1) ds) [b] l' EF) as X. rewrite X, skipn_skipn'. cbn [length]. rewrite Nat.add_1_r. reflexivity.
    - destruct (Nat.lt_ge_cases (S (c_current c1)) (length ds)) as [L|L]; [left|right].
      + split; [exact L|]. destruct (nth_error ds (S (c_current c1))) as [d|] eqn:N; [|apply nth_error_None in N; lia]. exists d. split; [first [exact N|reflexivity]|lia].
      + assert (c_current c1 < length ds) by (apply nth_error_Some; congruence). split; [lia|reflexivity].
    - repeat split.
      + unfold here at 1. rewrite (content_at _ _ _ _ Nth OB). symmetry. apply firstn_app_exact.
      + unfold here. cbn [c_current c_offset]. rewrite (firstn_S_nth _ _ _ Nth), concat_app, app_length. cbn. rewrite app_nil_r, skipn_length. lia. }
  assert (CUR : forall c1, at_front c1 -> ok c1 ds -> c_current c1 < length ds).
  { intros c1 (b & r & EL) K1. destruct (ok_loaded _ _ K1) as (i & k & EN). rewrite EL in EN. symmetry in EN. destruct (number_from_hd _ _ _ _ _ EN) as (-> & l' & EF & _).
    destruct (Nat.lt_ge_cases (c_current c1) (length ds)); [assumption|]. rewrite skipn_all2, firstn_nil in EF by lia. discriminate. }
  assert (AF : at_front c \/ exists c1, (c1 = c \/ exists x, c_loaded c = x :: c_loaded c1 /\ c1 = Contents (c_blocks c) (c_loaded c1) (c_current c) (c_offset c) (c_buffer c)) /\ read_block c = Some (c1, if more c1 then NeedBlocks else Eof)).
  { unfold at_front, read_block. destruct (c_loaded c) as [|[x b] r] eqn:EL; [right; exists c; split; [left; reflexivity|reflexivity]|].
    destruct (Nat.eqb_spec x (c_current c)) as [->|N]; [left; exists b, r; reflexivity|]. right. exists (Contents (c_blocks c) r (c_current c) (c_offset c) (c_buffer c)). split; [right; exists (x, b); split; reflexivity|reflexivity]. }
  destruct AF as [AF|(c1 & C1 & E)].
  - destruct (F1 fuel c) as (c' & l & R1 & R2 & R3 & R4 & R5 & R6); try assumption; [lia|]. exists c', (Some l). split; [exact R1|]. split; [exact R2|]. split; [exact R3|]. split; [exact R4|]. split; [split; [exact R5|exact R6]|]. split; [discriminate|].
    intros X. specialize (CUR _ AF K). lia.
  - assert (P1 : ok c1 ds /\ here c1 ds = here c ds /\ c_blocks c1 = c_blocks c /\ c_current c1 = c_current c /\ c_buffer c1 = c_buffer c).
    { destruct C1 as [->|(x & EL & E1)]; [repeat split; apply K|]. rewrite E1. unfold here. cbn. split; [|repeat split].
      constructor; cbn; [apply K| |apply K]. destruct (ok_loaded _ _ K) as (i & k & EN). rewrite EL in EN. destruct x as [xi xb]. symmetry in EN.
      destruct (number_from_hd _ _ _ _ _ EN) as (-> & l' & EF & ->). exists (S xi), (k - 1). f_equal.
      pose proof (firstn_split k (skipn xi ds) [xb] l' EF) as X. rewrite X, skipn_skipn'. cbn [length]. rewrite Nat.add_1_r. reflexivity. }
    destruct P1 as (K1 & H1 & B1 & CC & BF). destruct fuel as [|f1]; [lia|]. cbn [next_block]. rewrite E, (more_spec _ _ K1).
    destruct (Nat.ltb_spec (c_current c1) (length ds)) as [L|L].
    + assert (St1 : stored db (c_blocks c1) ds) by (rewrite B1; exact St).
      destruct (load_blocks_spec db c1 ds K1 St1 L) as (K2 & A2 & H2 & C2 & O2 & BB2 & BF2).
      destruct (F1 f1 (load_blocks db c1)) as (c' & l & R1 & R2 & R3 & R4 & R5 & R6); try assumption; [lia|]. exists c', (Some l). rewrite R1.
      split; [reflexivity|]. split; [assumption|]. split; [congruence|]. split; [congruence|]. rewrite H2, H1 in R5, R6. split; [split; assumption|]. split; [discriminate|]. intros X. lia.
    + exists c1, None. split; [reflexivity|]. split; [assumption|]. split; [congruence|]. split; [congruence|].
      assert (X : here c1 ds = length (concat ds)) by (destruct (ok_pos _ _ K1) as [(L' & _)|(E1 & O)]; [lia|]; unfold here; rewrite E1, O, firstn_all; lia).
      split; [split; lia|]. split; [|reflexivity]. intros _. destruct (ok_pos _ _ K1) as [(L' & _)|(E1 & O)]; lia.
Qed.

(* ---------- seeking ---------- *)
Lemma find_block_spec l : forall o ds j pos, laid o l ds -> o <= pos ->
  match find_block j pos l with
  | Some (i, b) => exists k, i = j + k /\ nth_error l k = Some b /\ bi_offset b <= pos < bi_offset b + bi_length b
  | None => o + length (concat ds) <= pos
  end.
Proof.
  induction l as [|b r IH]; intros o ds j pos L H; inversion L as [|? ? ? d ds0 E1 E2 E3 L']; subst; cbn [find_block]; [cbn; lia|].
  destruct (Nat.ltb_spec pos (bi_offset b + bi_length b)).
  - exists 0. cbn. repeat split; lia.
  - specialize (IH (bi_offset b + length d) ds0 (S j) pos L' ltac:(lia)). destruct (find_block (S j) pos r) as [[i b']|].
    + destruct IH as (k & -> & N & P). exists (S k). cbn. repeat split; try assumption; lia.
    + cbn. rewrite app_length. lia.
Qed.
Lemma seek_to_spec pos c ds : ok c ds -> exists c', seek_to pos c = Done (c', Nat.min pos (length (concat ds))) /\ ok c' ds /\
  c_blocks c' = c_blocks c /\ c_buffer c' = c_buffer c /\ here c' ds = Nat.min pos (length (concat ds)) /\ (ds <> [] -> c_current c' < length ds).
Proof.
  intros K. unfold seek_to. pose proof (find_block_spec _ 0 ds 0 pos (ok_laid _ _ K) ltac:(lia)) as F.
  destruct (find_block 0 pos (c_blocks c)) as [[i b]|].
  - destruct F as (k & -> & N & P). cbn [plus] in *. destruct (laid_nth _ _ _ _ _ (ok_laid _ _ K) N) as (d & Nd & O & Le & _). cbn [plus] in O.
    destruct (Nat.leb_spec (bi_offset b) pos); [|lia].
    assert (PL : pos < length (concat ds)).
    { rewrite <- (firstn_skipn k ds), concat_app, (skipn_nth _ _ _ Nd), app_length. cbn. rewrite app_length. lia. }
    rewrite Nat.min_l by lia. assert (LK : k < length ds) by (apply nth_error_Some; congruence).
    eexists. split; [reflexivity|]. split; [constructor; cbn; [apply K|apply K|left; split; [exact LK|]; exists d; split; [exact Nd|lia]]|].
    split; [reflexivity|]. split; [reflexivity|]. split; [unfold here; cbn; lia|]. intros _. exact LK.
  - pose proof (laid_length _ _ _ (ok_laid _ _ K)) as LL. cbn in F. rewrite Nat.min_r by lia. rewrite last_some.
    pose proof (laid_len _ _ c (ok_laid _ _ K) eq_refl) as CL. unfold contents_len in CL. rewrite last_some in CL.
    destruct (c_blocks c) as [|b r] eqn:EB.
    + assert (ds = []) by (destruct ds; [reflexivity|discriminate]). subst ds. eexists. split; [reflexivity|]. split; [constructor; cbn|].
      * constructor.
      * apply K.
      * right. split; reflexivity.
      * split; [first [reflexivity|cbn; congruence]|]. split; [reflexivity|]. split; [reflexivity|]. congruence.
    + rewrite <- EB in *. destruct (nth_error (c_blocks c) (length (c_blocks c) - 1)) as [x|] eqn:N; [|apply nth_error_None in N; rewrite EB in N; cbn in N; lia].
      destruct (laid_nth _ _ _ _ _ (ok_laid _ _ K) N) as (d & Nd & O & Le & _). rewrite CL.
      assert (LK : length (c_blocks c) - 1 < length ds) by (apply nth_error_Some; congruence).
      eexists. split; [reflexivity|]. split; [constructor; cbn; [apply K|apply K|left; split; [exact LK|]; exists d; split; [exact Nd|lia]]|].
      split; [reflexivity|]. split; [reflexivity|]. split; [unfold here; cbn; lia|]. intros _. exact LK.
Qed.
