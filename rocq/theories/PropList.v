(* C48: listings of files (bonsaidb-files). *)
From Verif Require Import Base Utf8 Key KeySpec KeyProofs KeyPrefix KeyPrefixProofs Files FilePath FilesProofs PropFiles PropPath.
From Coq Require Import Sorted ZifyBool.
Local Open Scope N_scope.

(* ================= specification ================= *)
(* what a listing returns for a file: the document, "/" given as no path *)
Definition exactly (l : list (N * file)) (st : fstate) (P : file -> Prop) : Prop :=
  NoDup (map fst l) /\
  forall i g, In (i, g) l <-> exists f, In (i, f) st /\ P f /\ f_name g = f_name f /\ f_path g = (if str_eqb (path_of f) root then None else Some (path_of f)).
Definition nul_free_paths (st : fstate) : Prop := forall i f, In (i, f) st -> nul_free (path_of f).
(* the first byte of the encoded length of a path of n bytes *)
Definition len_head (n : N) : N := if n <=? 127 then n else if n <=? 16383 then n / 128 else n / 16384.
(* the name starts with a byte above it *)
Definition name_above (path : str) (f : file) : Prop := exists b r, utf8 (f_name f) = b :: r /\ len_head (blen path) < b.

(* ================= proofs ================= *)
Lemma char_nul c : In 0 (utf8_char c) -> c = 0.
Proof.
  unfold utf8_char. repeat match goal with |- context[if ?b then _ else _] => destruct b end; cbn [In]; intros H.
  - destruct H as [H|[]]. exact H.
  - repeat destruct H as [H|H]; try contradiction; exfalso; lia.
  - repeat destruct H as [H|H]; try contradiction; exfalso; lia.
  - repeat destruct H as [H|H]; try contradiction; exfalso; lia.
Qed.
Lemma utf8_nul s : nul_free s -> ~ In 0 (utf8 s).
Proof. intros H I. apply in_flat_map in I as (c & J & K). apply H. rewrite (char_nul c K) in J. exact J. Qed.
Lemma esc_id l : ~ In 0 l -> esc l = l.
Proof. induction l as [|b l IH]; intros H; [reflexivity|]. cbn [esc]. destruct (N.eqb_spec b 0) as [->|]; [exfalso; apply H; left; reflexivity|]. rewrite IH; [reflexivity|]. intros X. apply H. right. exact X. Qed.
Lemma key_shape f k : key_of f = Done k -> nul_free (path_of f) -> exists z, k = utf8 (path_of f) ++ 0 :: esc (utf8 (f_name f)) ++ 0 :: z.
Proof. unfold key_of. intros K H. apply full_key_form in K as (_ & _ & ->). rewrite (esc_id (utf8 (path_of f))) by (apply utf8_nul, H). eexists. reflexivity. Qed.
Lemma lex_nul U : forall V x y, ~ In 0 U -> ~ In 0 V -> lex (U ++ 0 :: x) (V ++ 0 :: y) = match lex U V with Eq => lex x y | c => c end.
Proof.
  induction U as [|u U IH]; intros [|v V] x y HU HV; cbn [app lex]; [reflexivity| | |].
  - destruct (N.compare_spec 0 v) as [<-|L|L]; [exfalso; apply HV; left; reflexivity|reflexivity|lia].
  - destruct (N.compare_spec u 0) as [->|L|L]; [exfalso; apply HU; left; reflexivity|lia|reflexivity].
  - destruct (N.compare u v); [|reflexivity|reflexivity]. apply IH; intros X; [apply HU|apply HV]; right; exact X.
Qed.
(* [Q 0, Q 1) contains exactly the extensions of Q 0 *)
Lemma range_01 Q k : in_range (Q ++ [0]) (Q ++ [1]) k = true <-> exists z, k = Q ++ 0 :: z.
Proof.
  unfold in_range. rewrite andb_true_iff, lex_leb_spec, lex_ltb_spec. revert k; induction Q as [|q Q IH]; intros k; cbn [app].
  - destruct k as [|b k]; cbn [lex].
    + split; [intros (H & _); congruence|intros (z & E); discriminate].
    + destruct (N.compare_spec 0 b) as [<-|L|L]; [|destruct (N.compare_spec b 1) as [->|L1|L1]|lia].
      * cbn. split; [intros _; exists k; reflexivity|]. intros _. split; [destruct k; discriminate|reflexivity].
      * split; [intros (_ & H); destruct k; discriminate|]. intros (z & [= E _]).
      * exfalso. lia.
      * split; [intros (_ & H); discriminate|]. intros (z & [= E _]). lia.
  - destruct k as [|b k]; cbn [lex].
    + split; [intros (H & _); congruence|intros (z & E); discriminate].
    + destruct (N.compare_spec q b) as [<-|L|L].
      * rewrite N.compare_refl, IH. split; intros (z & E); exists z; [rewrite E; reflexivity|injection E as ->; reflexivity].
      * destruct (N.compare_spec b q) as [->|L1|L1]; [lia|lia|]. split; [intros (_ & H); discriminate|]. intros (z & [= E _]). lia.
      * split; [intros (H & _); congruence|]. intros (z & [= E _]). lia.
Qed.
Lemma split_nul U : forall V x y, ~ In 0 U -> ~ In 0 V -> U ++ 0 :: x = V ++ 0 :: y -> U = V.
Proof.
  induction U as [|u U IH]; intros [|v V] x y HU HV E; cbn in E; [reflexivity| | |].
  - injection E as <- _. exfalso. apply HV. left. reflexivity.
  - injection E as -> _. exfalso. apply HU. left. reflexivity.
  - injection E as -> E. f_equal. eapply IH; [| |exact E]; intros X; [apply HU|apply HV]; right; exact X.
Qed.
Lemma listed lo hi st (P : file -> Prop) : inv st ->
  (forall i f k, In (i, f) st -> key_of f = Done k -> (in_range lo hi k = true <-> P f)) ->
  exists l, list_range (Done lo) (Done hi) st = Done l /\ exactly l st P.
Proof.
  intros V H. eexists. split; [reflexivity|]. split.
  - rewrite map_map. cbn [fst]. pose proof (v_sorted _ V) as S. revert S. clear. induction st as [|[i f] r IH]; intros S; [constructor|]. cbn [map] in S. inversion S as [|? ? S1 F]; subst. cbn [filter snd].
    match goal with |- context[if ?b then _ else _] => destruct b end; [|apply IH, S1]. cbn [map fst]. constructor; [|apply IH, S1]. intros X. apply in_map_iff in X as ([j g] & <- & X). apply filter_In in X as (X & _). rewrite Forall_forall in F. apply (in_map fst), F in X. cbn in X. lia.
  - intros i g. rewrite in_map_iff. pose proof (v_files _ V) as F. rewrite Forall_forall in F. split.
    + intros ([j f] & E & I). cbn in E. injection E as <- <-. apply filter_In in I as (I & R). cbn [snd] in R. destruct (key_of f) as [k| |] eqn:K; try discriminate. exists f. split; [exact I|]. split; [apply (H _ _ _ I K), R|split; reflexivity].
    + intros (f & I & Pf & E1 & E2). exists (i, f). split.
      * cbn [fst snd]. f_equal. destruct g as [gp gn]. cbn in E1, E2. subst gn gp. reflexivity.
      * apply filter_In. split; [exact I|]. cbn [snd]. destruct (g_key _ (F _ I)) as (k & K). cbn [snd] in K. rewrite K. apply (H _ _ _ I K), Pf.
Qed.
Lemma nul_free_force p : nul_free p -> nul_free (force_slash p).
Proof. intros H. unfold force_slash. destruct (ends_with_slash p); [exact H|]. intros X. apply in_app_iff in X as [X|[X|[]]]; [exact (H X)|discriminate]. Qed.

(* ================= C48 ================= *)
Theorem C48_list st path : reachable st -> str_ok path -> nul_free path -> nul_free_paths st ->
  exists l, list_path path st = Done l /\ exactly l st (fun f => path_of f = force_slash path).
Proof.
  intros R O Np Ns. apply reachable_inv in R. apply listed; [exact R|]. intros i f k I K. unfold exact_part. rewrite range_01.
  pose proof (Ns _ _ I) as Nf. destruct (key_shape _ _ K Nf) as (z & ->).
  pose proof (v_files _ R) as F. rewrite Forall_forall in F. pose proof (F _ I) as G. cbn in G. split.
  - intros (z' & E). apply utf8_inj; [apply G|apply force_ok, O|]. eapply split_nul; [apply utf8_nul, Nf|apply utf8_nul, nul_free_force, Np|exact E].
  - intros ->. eexists. reflexivity.
Qed.

(* the name, then the lengths: what is compared with the length of the listed path *)
Definition after_path (f : file) : bytes :=
  esc (utf8 (f_name f)) ++ 0 :: varlen (N.of_nat (length (esc (utf8 (f_name f))))) ++ varlen (blen (path_of f)).
Lemma key_after f k : key_of f = Done k -> nul_free (path_of f) -> k = utf8 (path_of f) ++ 0 :: after_path f.
Proof. unfold key_of. intros K H. apply full_key_form in K as (_ & _ & ->). rewrite (esc_id (utf8 (path_of f))) by (apply utf8_nul, H). reflexivity. Qed.
Lemma one_key p : nul_free p -> blen p <= 65535 -> encode (TTup [TStr]) (VTup [VStr p]) = Done (utf8 p ++ 0 :: varlen (blen p)).
Proof.
  intros H L. cbn [encode enc_fields finish_outcome klen push_field handle_nulls fst snd app]. rewrite (esc_id (utf8 p)) by (apply utf8_nul, H).
  replace (N.of_nat (length (utf8 p)) <=? 65535) with true by (unfold blen in L; lia). cbn [finish_outcome].
  unfold finish_enc. cbn [fst snd rev flat_map app]. rewrite app_nil_r, <- !app_assoc. reflexivity.
Qed.
Lemma next_last p c : c < 0x10FFFF -> exists d, succ_char c = Some d /\ d <> 0 /\ next_string_sequence (p ++ [c]) = p ++ [d] /\ next_rev succ_char (rev (p ++ [c])) <> None.
Proof.
  intros L. assert (X : exists d, succ_char c = Some d /\ d <> 0).
  { unfold succ_char. destruct (c + 1 =? 0xD800) eqn:E1; [eexists; split; [reflexivity|lia]|]. destruct (0x10FFFF <? c + 1) eqn:E; [lia|]. eexists; split; [reflexivity|lia]. }
  destruct X as (d & E & Nz). exists d. split; [exact E|]. split; [exact Nz|]. unfold next_string_sequence. rewrite rev_app_distr. cbn [rev app next_rev]. rewrite E. cbn [rev]. rewrite rev_involutive. split; [reflexivity|discriminate].
Qed.
Lemma char_len c : (1 <= length (utf8_char c) <= 4)%nat.
Proof. unfold utf8_char. repeat match goal with |- context[if ?b then _ else _] => destruct b end; cbn; lia. Qed.
Lemma blen_app a b : blen (a ++ b) = blen a + blen b.
Proof. unfold blen. rewrite utf8_app, app_length. lia. Qed.
Lemma blen_one c : 1 <= blen [c] <= 4.
Proof. unfold blen, utf8. cbn [flat_map]. rewrite app_nil_r. pose proof (char_len c). lia. Qed.

(* what the recursive listing returns, exactly *)
Theorem C48_recursive_char st p c path : reachable st -> str_ok path -> nul_free path -> nul_free_paths st ->
  path = p ++ [c] -> c < 0x10FFFF -> blen path <= 65532 ->
  exists l, list_recursive path st = Done l /\ exactly l st (fun f =>
    (starts path (path_of f) /\ (path_of f = path -> lex (varlen (blen path)) (after_path f) <> Gt)) \/
    (path_of f = next_string_sequence path /\ lex (after_path f) (varlen (blen (next_string_sequence path))) = Lt)).
Proof.
  intros R O Np Ns E Hc L. destruct (next_last p c Hc) as (d & Ed & Nd & En & Nn). rewrite <- E in En, Nn.
  assert (Nnext : nul_free (next_string_sequence path)).
  { rewrite En. intros X. apply in_app_iff in X as [X|[X|[]]]; [|congruence]. apply Np. rewrite E. apply in_app_iff. left. exact X. }
  assert (Onext : str_ok (next_string_sequence path)).
  { rewrite En. rewrite E in O. apply str_ok_app in O as (Op & Oc). apply str_ok_app. split; [exact Op|]. inversion Oc as [|? ? Hcc _]; subst. constructor; [|constructor]. eapply succ_char_some; eassumption. }
  assert (Lnext : blen (next_string_sequence path) <= 65535).
  { rewrite En, blen_app. rewrite E, blen_app in L. pose proof (blen_one c). pose proof (blen_one d). lia. }
  unfold list_recursive, recursive_part. rewrite (one_key path Np ltac:(lia)), (one_key _ Nnext Lnext).
  pose proof (reachable_inv _ R) as V. apply listed; [exact V|]. intros i f k I K. pose proof (Ns _ _ I) as Nf. rewrite (key_after _ _ K Nf). clear K.
  pose proof (v_files _ V) as F. rewrite Forall_forall in F. pose proof (F _ I) as G. cbn in G. pose proof (proj1 (g_ok _ G)) as Of.
  unfold in_range. rewrite andb_true_iff, lex_leb_spec, lex_ltb_spec. rewrite !lex_nul by (apply utf8_nul; assumption).
  assert (SE : forall s, str_ok s -> (lex (utf8 path) (utf8 s) <> Gt /\ lex (utf8 s) (utf8 (next_string_sequence path)) = Lt <-> starts path s)) by (intros s Os; apply next_string_sequence_exact; assumption).
  assert (PN : lex (utf8 path) (utf8 (next_string_sequence path)) = Lt) by (apply (SE path O); exists []; rewrite app_nil_r; reflexivity).
  destruct (lex (utf8 path) (utf8 (path_of f))) eqn:C1.
  - apply lex_eq in C1. apply utf8_inj in C1; [|assumption|assumption]. rewrite <- C1 in *. rewrite PN. split.
    + intros (H & _). left. split; [exists []; rewrite app_nil_r; reflexivity|intros _; exact H].
    + intros [(_ & H)|(H & _)]; [split; [apply H; reflexivity|reflexivity]|]. rewrite <- H in PN. rewrite lex_refl in PN. discriminate.
  - assert (NP : path_of f <> path) by (intros X; rewrite X, lex_refl in C1; discriminate).
    destruct (lex (utf8 (path_of f)) (utf8 (next_string_sequence path))) eqn:C2.
    + apply lex_eq in C2. apply utf8_inj in C2; [|assumption|assumption]. split.
      * intros (_ & H). right. split; assumption.
      * intros [(H & _)|(_ & H)]; [|split; [discriminate|exact H]]. apply (SE _ Of) in H as (_ & H). rewrite C2, lex_refl in H. discriminate.
    + split; [|intros _; split; [discriminate|reflexivity]]. intros _. left. split; [|intros X; contradiction]. apply (SE _ Of). split; [rewrite C1; discriminate|exact C2].
    + split; [intros (_ & H); discriminate|]. intros [(H & _)|(H & _)].
      * apply (SE _ Of) in H as (_ & H). congruence.
      * rewrite H, lex_refl in C2. discriminate.
  - split; [intros (H & _); congruence|]. intros [(H & _)|(H & _)].
    + apply (SE _ Of) in H as (H & _). congruence.
    + rewrite H in C1. congruence.
Qed.
Lemma varlen_head n : exists t, varlen n = len_head n :: t.
Proof.
  unfold varlen, len_head. destruct (n <=? 127); [eexists; reflexivity|]. destruct (n <=? 16383); eexists; f_equal; rewrite N.shiftr_div_pow2; reflexivity.
Qed.
(* listing a path whose last character is not '.': the files whose path starts
   with it, provided that the names of the files directly in it are above the
   encoded length of the path (in particular for paths of less than 33 bytes and
   names without control characters) *)
Theorem C48_recursive st p c path : reachable st -> str_ok path -> nul_free path -> nul_free_paths st ->
  path = p ++ [c] -> c < 0x10FFFF -> c <> 46 -> blen path <= 65532 ->
  (forall i f, In (i, f) st -> path_of f = path -> name_above path f) ->
  exists l, list_recursive path st = Done l /\ exactly l st (fun f => starts path (path_of f)).
Proof.
  intros R O Np Ns E Hc Nc L A. destruct (C48_recursive_char st p c path R O Np Ns E Hc L) as (l & El & ND & X). exists l. split; [exact El|]. split; [exact ND|].
  intros i g. rewrite (X i g). clear X. pose proof (v_files _ (reachable_inv _ R)) as F. rewrite Forall_forall in F.
  split; intros (f & I & P & Q); exists f; (split; [exact I|]); (split; [|exact Q]).
  - destruct P as [(P & _)|(P & _)]; [exact P|]. exfalso. destruct (next_last p c Hc) as (d & Ed & Nd & En & Nn). rewrite <- E in En. pose proof (g_path _ (F _ I)) as G. cbn [snd] in G. rewrite P, En, ends_app in G.
    unfold succ_char in Ed. destruct (c + 1 =? 0xD800); [injection Ed as <-; discriminate|]. destruct (0x10FFFF <? c + 1); [discriminate|]. injection Ed as <-. unfold slash in G. lia.
  - left. split; [exact P|]. intros Pe. destruct (A _ _ I Pe) as (b & r & Eb & Lb). unfold after_path. rewrite Eb. cbn [esc]. replace (b =? 0) with false by lia. cbn [app].
    destruct (varlen_head (blen path)) as (t & ->). cbn [lex]. apply N.compare_lt_iff in Lb. rewrite Lb. discriminate.
Qed.
Theorem C48_recursive_short st p path : reachable st -> str_ok path -> nul_free path -> nul_free_paths st -> path = p ++ [slash] -> blen path < 32 ->
  (forall i f, In (i, f) st -> exists b r, f_name f = b :: r /\ 32 <= b) ->
  exists l, list_recursive path st = Done l /\ exactly l st (fun f => starts path (path_of f)).
Proof.
  intros R O Np Ns E L A. eapply (C48_recursive st p slash); try eassumption; [unfold slash; lia|discriminate|lia|].
  intros i f I _. destruct (A _ _ I) as (b & r & Eb & Lb). unfold name_above. rewrite Eb. cbn [utf8 flat_map].
  assert (H : exists x t, utf8_char b = x :: t /\ 32 <= x).
  { unfold utf8_char. repeat match goal with |- context[if ?q then _ else _] => destruct q end; eexists; eexists; (split; [reflexivity|lia]). }
  destruct H as (x & t & -> & Lx). exists x, (t ++ flat_map utf8_char r). split; [reflexivity|]. unfold len_head. replace (blen path <=? 127) with true by lia. lia.
Qed.

(* ================= examples and what fails ================= *)
Fixpoint create_all (l : list (option str * str)) (st : fstate) : option fstate :=
  match l with [] => Some st | (p, n) :: r => match create_file p n st with Done (st', _) => create_all r st' | _ => None end end.
Lemma create_all_reachable l : forall st st', forallb (fun p => match fst p with Some q => str_okb q | None => true end && str_okb (snd p)) l = true -> reachable st -> create_all l st = Some st' -> reachable st'.
Proof.
  induction l as [|[p n] r IH]; intros st st' H R E; cbn in E; [injection E as <-; exact R|]. cbn [forallb fst snd] in H. apply andb_true_iff in H as (H1 & H2). apply andb_true_iff in H1 as (Hp & Hn).
  destruct (create_file p n st) as [[st1 id]| |] eqn:C; try discriminate. eapply IH; [exact H2| |exact E]. eapply re_step; [exact R| |eapply p_create; exact C].
  cbn. destruct p as [p|]; [split; apply str_okb_spec; assumption|apply str_okb_spec; assumption].
Qed.
Definition files_of l : fstate := match create_all l [] with Some st => st | None => [] end.
Lemma files_of_reachable l : forallb (fun p => match fst p with Some q => str_okb q | None => true end && str_okb (snd p)) l = true -> reachable (files_of l).
Proof. intros H. unfold files_of. destruct (create_all l []) as [st|] eqn:E; [|constructor]. eapply create_all_reachable; [exact H|constructor|exact E]. Qed.
Definition ids {E} (o : outcome (list (N * file)) E) : list N := match o with Done l => map fst l | _ => [] end.
Lemma nul_free_dec s : forallb (fun c => negb (c =? 0)) s = true -> nul_free s.
Proof. intros H X. rewrite forallb_forall in H. apply H in X. discriminate. Qed.
(* /x, /a/x, /a/b/x, /ab/x *)
Definition ex_list : fstate := files_of [(None, [120]); (Some [47;97], [120]); (Some [47;97;47;98], [120]); (Some [47;97;98], [120])].
Example C48_example : reachable ex_list /\ nul_free_paths ex_list /\ length ex_list = 4%nat /\
  (forall i f, In (i, f) ex_list -> exists b r, f_name f = b :: r /\ 32 <= b) /\
  ids (list_path [47;97] ex_list) = [2] /\ ids (list_recursive [47;97;47] ex_list) = [2; 3] /\ ids (list_recursive [47;97] ex_list) = [2; 3; 4] /\ ids (list_recursive [47] ex_list) = [1; 2; 3; 4].
Proof.
  assert (E : ex_list = [(1, File None [120]); (2, File (Some [47;97;47]) [120]); (3, File (Some [47;97;47;98;47]) [120]); (4, File (Some [47;97;98;47]) [120])]) by (vm_compute; reflexivity).
  split; [apply files_of_reachable; vm_compute; reflexivity|]. rewrite E.
  split; [intros i f I; apply nul_free_dec; repeat (destruct I as [I|I]; [injection I as <- <-; reflexivity|]); destruct I|].
  split; [reflexivity|]. split; [intros i f I; exists 120, []; repeat (destruct I as [I|I]; [injection I as <- <-; split; [reflexivity|lia]|]); destruct I|].
  split; [vm_compute; reflexivity|]. split; [vm_compute; reflexivity|]. split; vm_compute; reflexivity.
Qed.
(* a path of 50 bytes, with the file "1" ('1' = 49) in it: the recursive listing of the path omits it *)
Definition long_dir : str := [47] ++ repeat 97 48 ++ [47].
Theorem C48_recursive_omits_refuted : let st := files_of [(Some long_dir, [49]); (Some long_dir, [51])] in
  reachable st /\ st = [(1, File (Some long_dir) [49]); (2, File (Some long_dir) [51])] /\
  ids (list_path long_dir st) = [1; 2] /\ ids (list_recursive long_dir st) = [2] /\
  stats long_dir (FDb st []) = Done (1%nat, 0%nat).
Proof.
  cbv zeta. split; [apply files_of_reachable; vm_compute; reflexivity|]. split; [vm_compute; reflexivity|]. split; [vm_compute; reflexivity|]. split; vm_compute; reflexivity.
Qed.
(* the empty path is a prefix of every path, but nothing is listed *)
Theorem C48_recursive_empty_refuted : forall st, list_recursive [] st = Done [].
Proof.
  intros st. unfold list_recursive. change (recursive_part [] true) with (Done [0; 0] : outcome bytes kerr). change (recursive_part [] false) with (Done [0; 0] : outcome bytes kerr). unfold list_range. f_equal.
  replace (filter _ st) with ([] : fstate); [reflexivity|]. symmetry. induction st as [|[i f] r IH]; [reflexivity|]. cbn [filter snd]. rewrite IH. destruct (key_of f) as [k| |]; [|reflexivity|reflexivity].
  unfold in_range. destruct (lex_leb [0; 0] k) eqn:A; [|reflexivity]. destruct (lex_ltb k [0; 0]) eqn:B; [|reflexivity]. exfalso. apply lex_leb_spec in A. apply lex_ltb_spec in B. apply A. apply lex_gt_lt. exact B.
Qed.
(* a NUL in a path: the file in "/a/\0x/" is listed as one directly in "/a/" *)
Theorem C48_nul_refuted : let st := files_of [(Some [47;97;47;0;120], [121])] in
  reachable st /\ st = [(1, File (Some [47;97;47;0;120;47]) [121])] /\ ids (list_path [47;97] st) = [1].
Proof. cbv zeta. split; [apply files_of_reachable; vm_compute; reflexivity|]. split; vm_compute; reflexivity. Qed.
(* the statistics of a directory: how many files a recursive listing has, and the sum of the
   lengths of what they read as *)
Theorem C48_stats bs es db path l : (0 < bs)%nat -> runs bs empty_db es db -> list_recursive path (files db) = Done l ->
  exists cs, Forall2 (fun p c => reads_as bs db (fst p) c) l cs /\ stats path db = Done (length l, length (concat cs)).
Proof.
  intros Hb R L. unfold stats. rewrite L. clear L. induction l as [|p l IH]; [exists []; split; [constructor|reflexivity]|].
  destruct IH as (cs & F & E). destruct (C45_contents bs es db (fst p) Hb R) as (c & _ & RA). exists (c :: cs). split; [constructor; assumption|].
  cbn [fold_right concat length]. rewrite app_length. pose proof (f_equal (fun o => match o with Done x => snd x | _ => O end) E) as E2. cbv beta iota in E2. cbn [snd] in E2. rewrite E2. destruct (RA (by_file (fst p) db) O (Permutation.Permutation_refl _)) as (_ & X & _).
  rewrite X. reflexivity.
Qed.
Definition ex_stats : fdb := match append 2 [1;2;3] 1 5%Z (FDb ex_list []) with Done d => d | _ => empty_db end.
Example C48_stats_ex : length (blocks ex_stats) = 2%nat /\ stats [47] ex_stats = Done (4%nat, 3%nat).
Proof. split; vm_compute; reflexivity. Qed.
Print Assumptions C48_list.
Print Assumptions C48_recursive_char.
Print Assumptions C48_recursive.
Print Assumptions C48_recursive_short.
Print Assumptions C48_recursive_omits_refuted.
Print Assumptions C48_recursive_empty_refuted.
Print Assumptions C48_nul_refuted.
Print Assumptions C48_stats.
