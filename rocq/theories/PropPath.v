(* C48, C49, C60: paths of files (bonsaidb-files). *)
From Verif Require Import Base Utf8 Key KeySpec KeyProofs KeyPrefix KeyPrefixProofs Files FilePath FilesProofs.
From Coq Require Import Sorted ZifyBool.
Local Open Scope N_scope.

(* ================= specification ================= *)
(* the calls that succeed; a call that fails changes nothing. Handles are
   current (a stale one gives a conflict, see update_file). *)
Inductive pop := OCreate (path : option str) (name : str) | OMove (id : N) (new_path : str) | ORename (id : N) (new_name : str) | ODelete (id : N).
Definition op_ok (o : pop) : Prop :=   (* Rust strings are sequences of Unicode scalar values *)
  match o with OCreate None n => str_ok n | OCreate (Some p) n => str_ok p /\ str_ok n | OMove _ p => str_ok p | ORename _ n => str_ok n | ODelete _ => True end.
Inductive pstep : fstate -> pop -> fstate -> Prop :=
| p_create st p n st' id : create_file p n st = Done (st', id) -> pstep st (OCreate p n) st'
| p_move st id f np st' f' : lookup id st = Some f -> move_to id f np st = Done (st', f') -> pstep st (OMove id np) st'
| p_rename st id f nn st' f' : lookup id st = Some f -> rename id f nn st = Done (st', f') -> pstep st (ORename id nn) st'
| p_delete st id : pstep st (ODelete id) (delete_id id st).
Inductive reachable : fstate -> Prop :=
| re_empty : reachable []
| re_step st o st' : reachable st -> op_ok o -> pstep st o st' -> reachable st'.
(* one trailing slash does not matter; a name without slash is in the root *)
Definition trimmed (s : str) : str := if ends_with_slash s then removelast s else s.
Definition absolute (s : str) : str := if contains_slash (trimmed s) then trimmed s else slash :: trimmed s.
(* no empty component right before the name, as in "/a//b" *)
Definition good_path (s : str) : Prop := forall p n, trimmed s = p ++ slash :: n -> contains_slash n = false -> ends_with_slash p = false.
Definition destination (f : file) (new_path : str) : str := if ends_with_slash new_path then new_path ++ f_name f else new_path.
Definition nul_free (s : str) : Prop := ~ In 0 s.
Definition starts (p s : str) : Prop := exists r, s = p ++ r.
Definition blen (s : str) : N := N.of_nat (length (utf8 s)).

(* ================= proofs: splitting ================= *)
Lemma contains_app a b : contains_slash (a ++ b) = contains_slash a || contains_slash b.
Proof. apply existsb_app. Qed.
Lemma rsplit_rev_spec l : forall acc, contains_slash acc = false ->
  match rsplit_rev l acc with
  | Some (p, n) => rev l ++ acc = p ++ slash :: n /\ contains_slash n = false
  | None => contains_slash (rev l ++ acc) = false
  end.
Proof.
  induction l as [|c r IH]; intros acc H; cbn [rsplit_rev]; [exact H|]. destruct (N.eqb_spec c slash) as [->|N].
  - cbn [rev]. rewrite <- app_assoc. split; [reflexivity|exact H].
  - cbn [rev]. rewrite <- app_assoc. cbn [app]. apply IH. unfold contains_slash in *. cbn [existsb]. rewrite H. replace (slash =? c) with false by lia. reflexivity.
Qed.
Lemma rsplit_spec s : match rsplit_once s with Some (p, n) => s = p ++ slash :: n /\ contains_slash n = false | None => contains_slash s = false end.
Proof. unfold rsplit_once. pose proof (rsplit_rev_spec (rev s) [] eq_refl) as H. rewrite rev_involutive, app_nil_r in H. exact H. Qed.
Lemma split_unique p n p' n' : p ++ slash :: n = p' ++ slash :: n' -> contains_slash n = false -> contains_slash n' = false -> p = p' /\ n = n'.
Proof.
  revert p'; induction p as [|c p IH]; intros [|c' p'] E H H'; cbn in E.
  - injection E as ->. split; reflexivity.
  - injection E as <- ->. exfalso. rewrite contains_app in H. cbn in H. rewrite orb_true_r in H. discriminate.
  - injection E as -> <-. exfalso. rewrite contains_app in H'. cbn in H'. rewrite orb_true_r in H'. discriminate.
  - injection E as -> E. destruct (IH _ E H H') as (-> & ->). split; reflexivity.
Qed.
Lemma rsplit_app p n : contains_slash n = false -> rsplit_once (p ++ slash :: n) = Some (p, n).
Proof.
  intros H. pose proof (rsplit_spec (p ++ slash :: n)) as S. destruct (rsplit_once (p ++ slash :: n)) as [[p' n']|].
  - destruct S as (E & H'). destruct (split_unique _ _ _ _ E H H') as (-> & ->). reflexivity.
  - rewrite contains_app in S. cbn in S. rewrite orb_true_r in S. discriminate.
Qed.
Lemma ends_app s c : ends_with_slash (s ++ [c]) = (c =? slash).
Proof. unfold ends_with_slash. rewrite rev_app_distr. reflexivity. Qed.
Lemma ends_inv s : ends_with_slash s = true -> s = removelast s ++ [slash].
Proof.
  destruct s as [|c s _] using rev_ind; [discriminate|]. rewrite ends_app, removelast_last. intros H. f_equal. f_equal. lia.
Qed.
Lemma ends_name p n : contains_slash n = false -> n <> [] -> ends_with_slash (p ++ n) = false.
Proof.
  intros H Nn. destruct n as [|c n _] using rev_ind; [congruence|]. rewrite app_assoc, ends_app. rewrite contains_app in H. apply orb_false_iff in H as (_ & H). unfold contains_slash in H. cbn [existsb] in H. rewrite orb_false_r in H. rewrite N.eqb_sym. exact H.
Qed.
Lemma ends_force p : ends_with_slash (force_slash p) = true.
Proof. unfold force_slash. destruct (ends_with_slash p) eqn:E; [exact E|]. rewrite ends_app. reflexivity. Qed.
Lemma force_id p : ends_with_slash p = true -> force_slash p = p.
Proof. unfold force_slash. intros ->. reflexivity. Qed.

(* ================= keys ================= *)
Lemma full_key_form p n k : full_key p n = Done k <->
  N.of_nat (length (esc (utf8 p))) <= 65535 /\ N.of_nat (length (esc (utf8 n))) <= 65535 /\
  k = esc (utf8 p) ++ 0 :: esc (utf8 n) ++ 0 :: varlen (N.of_nat (length (esc (utf8 n)))) ++ varlen (N.of_nat (length (esc (utf8 p)))).
Proof.
  unfold full_key. cbn [encode enc_fields finish_outcome klen push_field handle_nulls fst snd app].
  destruct (N.leb_spec (N.of_nat (length (esc (utf8 p)))) 65535) as [L1|L1]; cbn [finish_outcome]; [|split; [discriminate|intros (X & _); lia]].
  destruct (N.leb_spec (N.of_nat (length (esc (utf8 n)))) 65535) as [L2|L2]; cbn [finish_outcome]; [|split; [discriminate|intros (_ & X & _); lia]].
  unfold finish_enc. cbn [fst snd rev flat_map app]. rewrite app_nil_r, <- !app_assoc. cbn [app].
  split; [intros [= <-]; repeat split; assumption|]. intros (_ & _ & ->). reflexivity.
Qed.
Lemma varlen_length n : (length (varlen n) <= 3)%nat.
Proof. unfold varlen. destruct (n <=? 0x7F); [cbn; lia|]. destruct (n <=? 0x3FFF); cbn; lia. Qed.
Lemma full_key_inj p n p' n' k : str_ok p -> str_ok n -> str_ok p' -> str_ok n' -> full_key p n = Done k -> full_key p' n' = Done k -> p = p' /\ n = n'.
Proof.
  intros H1 H2 H3 H4 E E'. assert (L : N.of_nat (length k) < 2 ^ 63).
  { apply full_key_form in E as (L1 & L2 & ->). rewrite app_length. cbn [length]. rewrite app_length. cbn [length]. rewrite app_length.
    pose proof (varlen_length (N.of_nat (length (esc (utf8 n))))). pose proof (varlen_length (N.of_nat (length (esc (utf8 p))))). change (2 ^ 63) with 9223372036854775808. lia. }
  assert (T : forall a b, str_ok a -> str_ok b -> typed (TTup [TStr; TStr]) (VTup [VStr a; VStr b]) = true).
  { intros a b Ha Hb. cbn. rewrite (proj2 (str_okb_spec a) Ha), (proj2 (str_okb_spec b) Hb). reflexivity. }
  pose proof (roundtrip (TTup [TStr; TStr]) (VTup [VStr p; VStr n]) k eq_refl (T _ _ H1 H2) E L) as R.
  pose proof (roundtrip (TTup [TStr; TStr]) (VTup [VStr p'; VStr n']) k eq_refl (T _ _ H3 H4) E' L) as R'. rewrite R in R'. injection R' as -> ->. split; reflexivity.
Qed.

(* ================= the invariant ================= *)
Record good_file (f : file) : Prop := {
  g_path : ends_with_slash (path_of f) = true;
  g_name : contains_slash (f_name f) = false;
  g_ok : str_ok (path_of f) /\ str_ok (f_name f);
  g_key : exists k, key_of f = Done k
}.
Record inv (st : fstate) : Prop := {
  v_sorted : StronglySorted N.lt (map fst st);
  v_files : Forall (fun p => good_file (snd p)) st;
  v_unique : forall i f j g k, In (i, f) st -> In (j, g) st -> key_of f = Done k -> key_of g = Done k -> i = j
}.
Lemma bytes_eqb_eq a b : bytes_eqb a b = true <-> a = b.
Proof. apply bytes_eqb_spec. Qed.
Lemma has_key_iff k f : has_key k f = true <-> key_of f = Done k.
Proof. unfold has_key. destruct (key_of f) as [k'| |]; [rewrite bytes_eqb_eq; split; congruence|split; discriminate|split; discriminate]. Qed.
Lemma str_ok_app a b : str_ok (a ++ b) <-> str_ok a /\ str_ok b.
Proof. apply Forall_app. Qed.
Lemma slash_ok : str_ok [slash].
Proof. repeat constructor. Qed.
Lemma force_ok p : str_ok p -> str_ok (force_slash p).
Proof. intros H. unfold force_slash. destruct (ends_with_slash p); [exact H|]. apply str_ok_app. split; [exact H|apply slash_ok]. Qed.
Lemma lookup_In {A} id (l : list (N * A)) a : lookup id l = Some a -> In (id, a) l.
Proof. induction l as [|[i b] r IH]; cbn; [discriminate|]. destruct (N.eqb_spec id i) as [->|]; [intros [= ->]; left; reflexivity|right; auto]. Qed.
Lemma next_id_fresh (l : fstate) id : StronglySorted N.lt (map fst l) -> next_id u32_mod (last_id l) = Some id -> forall y, In y (map fst l) -> y < id.
Proof.
  destruct l as [|p r _] using rev_ind; [intros _ _ y []|]. rewrite last_id_app. cbn [next_id].
  destruct (fst p + 1 <? u32_mod); [|discriminate]. intros S [= <-] y Hy.
  rewrite map_app in *. cbn in *. apply in_app_iff in Hy as [Hy|[<-|[]]]; [|lia].
  assert (y < fst p); [|lia].
  revert S Hy. generalize (map fst r). clear. induction l as [|a l IH]; cbn; intros S E; [destruct E|]. destruct E as [E|E]; inversion S as [|? ? S1 F]; subst.
  - rewrite Forall_forall in F. apply F. apply in_app_iff. right. left. reflexivity.
  - apply IH; assumption.
Qed.
Lemma same_id (l : fstate) i f g : StronglySorted N.lt (map fst l) -> In (i, f) l -> In (i, g) l -> f = g.
Proof. intros S I J. apply (lookup_in _ _ _ S) in I. apply (lookup_in _ _ _ S) in J. congruence. Qed.
Lemma insert_inv f st st' id : inv st -> (ends_with_slash (path_of f) = true) -> contains_slash (f_name f) = false -> str_ok (path_of f) /\ str_ok (f_name f) ->
  insert_file f st = Done (st', id) -> inv st' /\ st' = st ++ [(id, f)] /\ (forall g, In (id, g) st -> False) /\ exists k, key_of f = Done k.
Proof.
  intros [S F U] P Nm O. unfold insert_file. destruct (key_of f) as [k| |] eqn:K; try discriminate.
  destruct (existsb _ st) eqn:X; [discriminate|]. destruct (next_id u32_mod (last_id st)) as [i|] eqn:Nx; [|discriminate]. intros [= <- <-].
  pose proof (next_id_fresh _ _ S Nx) as Fr.
  assert (NE : forall j g k', In (j, g) st -> key_of g = Done k' -> k' <> k).
  { intros j g k' I Kg ->. rewrite <- not_true_iff_false, existsb_exists in X. apply X. exists (j, g). split; [exact I|]. apply has_key_iff, Kg. }
  split; [|split; [reflexivity|split; [|exists k; reflexivity]]].
  - constructor.
    + rewrite map_app. apply sorted_app_one; assumption.
    + apply Forall_app. split; [exact F|]. constructor; [|constructor]. constructor; [exact P|exact Nm|exact O|exists k; exact K].
    + intros a fa b fb k' I J Ka Kb. apply in_app_iff in I, J. destruct I as [I|[[= <- <-]|[]]], J as [J|[[= <- <-]|[]]]; try reflexivity.
      * eapply U; eassumption.
      * exfalso. eapply NE; [exact I|exact Ka|]. rewrite K in Kb. injection Kb as ->. reflexivity.
      * exfalso. eapply NE; [exact J|exact Kb|]. rewrite K in Ka. injection Ka as ->. reflexivity.
  - intros g I. specialize (Fr i). apply (in_map fst) in I. specialize (Fr I). lia.
Qed.
Lemma update_inv id old f st st' : inv st -> (ends_with_slash (path_of f) = true) -> contains_slash (f_name f) = false -> str_ok (path_of f) /\ str_ok (f_name f) ->
  update_file id old f st = Done st' -> inv st' /\ In (id, f) st' /\ (exists k, key_of f = Done k) /\ (forall j g, j <> id -> In (j, g) st' <-> In (j, g) st) .
Proof.
  intros [S F U] P Nm O. unfold update_file. destruct (lookup id st) as [cur|] eqn:L; [|discriminate]. destruct (_ && _); [|discriminate].
  destruct (key_of f) as [k| |] eqn:K; try discriminate. destruct (existsb _ st) eqn:X; [discriminate|]. intros [= <-]. apply lookup_In in L.
  assert (NE : forall j g k', In (j, g) st -> j <> id -> key_of g = Done k' -> k' <> k).
  { intros j g k' I Nj Kg ->. rewrite <- not_true_iff_false, existsb_exists in X. apply X. exists (j, g). split; [exact I|]. apply andb_true_iff. split; [cbn; lia|]. apply has_key_iff, Kg. }
  assert (MI : forall j g, In (j, g) (map (fun p => if fst p =? id then (id, f) else p) st) <-> (j = id /\ g = f) \/ (j <> id /\ In (j, g) st)).
  { intros j g. rewrite in_map_iff. split.
    - intros ([a b] & E & I). cbn in E. destruct (N.eqb_spec a id) as [->|Na]; injection E as <- <-; [left; split; reflexivity|right; split; assumption].
    - intros [(-> & ->)|(Nj & I)]; [exists (id, cur); cbn; rewrite N.eqb_refl; split; [reflexivity|exact L]|]. exists (j, g). cbn. replace (j =? id) with false by lia. split; [reflexivity|exact I]. }
  split; [constructor|split; [apply MI; left; split; reflexivity|split; [exists k; reflexivity|]]].
  - replace (map fst (map (fun p => if fst p =? id then (id, f) else p) st)) with (map fst st); [exact S|]. clear. induction st as [|[a b] r IH]; cbn; [reflexivity|]. rewrite <- IH. destruct (N.eqb_spec a id); cbn; congruence.
  - apply Forall_forall. intros [j g] I. apply MI in I. rewrite Forall_forall in F. destruct I as [(-> & ->)|(_ & I)]; [|exact (F _ I)]. constructor; [exact P|exact Nm|exact O|exists k; exact K].
  - intros a fa b fb k' I J Ka Kb. apply MI in I, J. destruct I as [(-> & ->)|(Na & I)], J as [(-> & ->)|(Nb & J)]; try reflexivity.
    + exfalso. eapply NE; [exact J|exact Nb|exact Kb|congruence].
    + exfalso. eapply NE; [exact I|exact Na|exact Ka|congruence].
    + eapply U; eassumption.
  - intros j g Nj. rewrite MI. tauto.
Qed.
Lemma new_file_good p n : (match p with Some p => str_ok p | None => True end) -> ends_with_slash (path_of (new_file p n)) = true /\ str_ok (path_of (new_file p n)).
Proof. intros H. destruct p as [p|]; cbn; [split; [apply ends_force|apply force_ok, H]|split; [reflexivity|apply slash_ok]]. Qed.
Lemma moved_good f np f' : good_file f -> str_ok np -> moved f np = Some f' ->
  ends_with_slash (path_of f') = true /\ contains_slash (f_name f') = false /\ str_ok (path_of f') /\ str_ok (f_name f').
Proof.
  intros G O. unfold moved. destruct (ends_with_slash np) eqn:E.
  - intros [= <-]. cbn [path_of f_path f_name]. destruct (1 <? length np)%nat; cbn; (split; [assumption || reflexivity|]); (split; [apply (g_name _ G)|split; [|apply (g_ok _ G)]]); [exact O|apply slash_ok].
  - pose proof (rsplit_spec np) as S. destruct (rsplit_once np) as [[p n]|]; [|discriminate]. destruct S as (-> & Nn). intros [= <-]. apply str_ok_app in O as (Op & On). inversion On as [|? ? _ On']; subst.
    cbn [path_of f_path f_name]. destruct p as [|c p]; cbn [option_map]; (split; [first [apply ends_force|reflexivity]|]); (split; [exact Nn|split; [|exact On']]); [apply slash_ok|apply force_ok, Op].
Qed.
Lemma delete_inv id st : inv st -> inv (delete_id id st).
Proof.
  intros [S F U]. assert (I : forall p, In p (delete_id id st) -> In p st) by (intros p H; apply filter_In in H; apply H). constructor.
  - apply delete_id_sorted, S.
  - rewrite Forall_forall in *. intros p H. apply F, I, H.
  - intros i f j g k A B. apply I in A, B. eapply U; eassumption.
Qed.
Lemma reachable_inv st : reachable st -> inv st.
Proof.
  induction 1 as [|st o st' R IH O S]; [constructor; [constructor|constructor|intros ? ? ? ? ? []]|].
  destruct S as [st p n st' id C|st id f np st' f' L M|st id f nn st' f' L M|st id].
  - unfold create_file in C. destruct (contains_slash n) eqn:Cn; [discriminate|]. destruct n as [|c n0] eqn:En; [discriminate|]. rewrite <- En in *. cbn [orb] in C. cbn in O.
    assert (Op : match p with Some p => str_ok p | None => True end) by (destruct p; [apply O|exact I]). assert (On : str_ok n) by (destruct p; [apply O|exact O]).
    destruct (new_file_good p n Op) as (A & B). eapply (insert_inv (new_file p n)); [exact IH|exact A|exact Cn|split; [exact B|exact On]|exact C].
  - unfold move_to in M. destruct (starts_with_slash np); [|discriminate]. destruct (moved f np) as [f2|] eqn:Mv; [|discriminate]. destruct (update_file id f f2 st) as [st2| |] eqn:Up; try discriminate. injection M as <- <-.
    pose proof (v_files _ IH) as F. rewrite Forall_forall in F. apply lookup_In in L. specialize (F _ L). cbn in F. destruct (moved_good _ _ _ F O Mv) as (A & B & C). eapply update_inv; eassumption.
  - unfold rename in M. destruct (contains_slash nn) eqn:Cn; [discriminate|]. destruct (update_file id f (File (f_path f) nn) st) as [st2| |] eqn:Up; try discriminate. injection M as <- <-.
    pose proof (v_files _ IH) as F. rewrite Forall_forall in F. apply lookup_In in L. specialize (F _ L). cbn in F. eapply update_inv; [exact IH| | | |exact Up]; [apply (g_path _ F)|exact Cn|split; [apply (g_ok _ F)|exact O]].
  - apply delete_inv, IH.
Qed.

(* ================= finding ================= *)
Lemma find_by_key st i f k : inv st -> In (i, f) st -> key_of f = Done k -> List.find (fun p => has_key k (snd p)) st = Some (i, f).
Proof.
  intros [S F U] I K. destruct (List.find (fun p => has_key k (snd p)) st) as [[j g]|] eqn:E.
  - apply find_some in E as (J & H). apply has_key_iff in H. cbn in H. assert (i = j) by (eapply U; eassumption). subst j. f_equal. f_equal. eapply same_id; eassumption.
  - exfalso. apply (find_none _ _ E) in I. cbn in I. apply not_true_iff_false in I. apply I, has_key_iff, K.
Qed.
Lemma file_path_good f : good_file f -> file_path f = path_of f ++ f_name f.
Proof. intros G. unfold file_path. rewrite force_id by apply G. reflexivity. Qed.
Lemma find_key_path f : good_file f -> f_name f <> [] -> find_key (file_path f) = (path_of f, f_name f).
Proof.
  intros G Nn. rewrite file_path_good by exact G. unfold find_key. rewrite ends_name by (apply G || exact Nn). rewrite (ends_inv _ (g_path _ G)), <- app_assoc. cbn [app]. rewrite rsplit_app by apply G. reflexivity.
Qed.
Lemma find_at st i f s : inv st -> In (i, f) st -> s <> [] -> find_key s = (path_of f, f_name f) -> find_file s st = Done (Some (i, normalized f)).
Proof.
  intros V I Ns E. unfold find_file. destruct s as [|c r] eqn:Es; [congruence|]. rewrite <- Es in *. rewrite E. cbn [fst snd].
  pose proof (v_files _ V) as F. rewrite Forall_forall in F. destruct (g_key _ (F _ I)) as (k & K). cbn [snd] in K. change (full_key (path_of f) (f_name f)) with (key_of f). rewrite K, (find_by_key _ _ _ _ V I K). reflexivity.
Qed.
Lemma normalized_same f : path_of (normalized f) = path_of f /\ f_name (normalized f) = f_name f /\ file_path (normalized f) = file_path f.
Proof.
  assert (P : path_of (normalized f) = path_of f).
  { unfold normalized, path_of at 1. cbn [f_path]. destruct (str_eqb (path_of f) root) eqn:E; [apply bytes_eqb_eq in E; congruence|reflexivity]. }
  split; [exact P|]. split; [reflexivity|]. unfold file_path. rewrite P. reflexivity.
Qed.
Lemma find_key_ok s : str_ok s -> str_ok (fst (find_key s)) /\ str_ok (snd (find_key s)).
Proof.
  intros O. unfold find_key. assert (O' : str_ok (if ends_with_slash s then removelast s else s)).
  { destruct (ends_with_slash s) eqn:E; [|exact O]. rewrite (ends_inv _ E) in O. apply str_ok_app in O. apply O. }
  pose proof (rsplit_spec (if ends_with_slash s then removelast s else s)) as S. destruct (rsplit_once _) as [[p n]|]; cbn [fst snd].
  - destruct S as (E & _). rewrite E in O'. apply str_ok_app in O' as (A & B). inversion B; subst. split; [apply str_ok_app; split; [exact A|apply slash_ok]|assumption].
  - split; [apply slash_ok|exact O'].
Qed.
Lemma find_key_absolute s : fst (find_key s) ++ snd (find_key s) = absolute s.
Proof.
  unfold find_key, absolute. cbv zeta. change (if ends_with_slash s then removelast s else s) with (trimmed s). pose proof (rsplit_spec (trimmed s)) as S. destruct (rsplit_once (trimmed s)) as [[p n]|]; cbn [fst snd].
  - destruct S as (E & C). rewrite <- app_assoc. cbn [app]. rewrite <- E. replace (contains_slash (trimmed s)) with true; [reflexivity|]. rewrite E, contains_app. cbn. rewrite orb_true_r. reflexivity.
  - rewrite S. reflexivity.
Qed.
(* what the builder makes of a string is what find looks for *)
Lemma builder_key s p n : builder_new s = (p, n) -> contains_slash n = false -> n <> [] -> good_path s ->
  s <> [] /\ find_key s = (path_of (new_file p n), n).
Proof.
  unfold builder_new, find_key. intros B Cn Nn G. unfold good_path, trimmed in G. destruct (starts_with_slash s) eqn:St.
  - assert (Ns : s <> []) by (destruct s; [discriminate|discriminate]). split; [exact Ns|].
    assert (T : (ends_with_slash s && (1 <? length s)%nat = true) \/ ends_with_slash s = false \/ s = [slash]).
    { destruct (ends_with_slash s) eqn:E; [|tauto]. destruct s as [|c [|d s]]; [discriminate| |left; reflexivity]. right. right. cbn in St. f_equal. lia. }
    assert (B' : s <> [slash] -> match rsplit_once (if ends_with_slash s then removelast s else s) with
                  | Some (p, n) => (match p with [] => None | [c] => if c =? slash then None else Some p | _ => Some p end, n) | None => (None, if ends_with_slash s then removelast s else s) end = (p, n)).
    { intros N1. destruct T as [T|[T|T]]; [|rewrite T in *; cbn [andb] in B; exact B|contradiction]. rewrite T in B. apply andb_true_iff in T as (-> & _). exact B. }
    assert (N1 : s <> [slash]) by (intros ->; vm_compute in B; injection B as _ <-; congruence).
    specialize (B' N1). clear B T N1. pose proof (rsplit_spec (if ends_with_slash s then removelast s else s)) as S. destruct (rsplit_once _) as [[p0 n0]|].
    + destruct S as (E & C0). specialize (G _ _ E C0). injection B' as <- <-.
      destruct p0 as [|c [|d p0]]; [reflexivity| |].
      * unfold ends_with_slash in G. cbn in G. rewrite G. unfold new_file, path_of. cbn [f_path option_map]. unfold force_slash, ends_with_slash. cbn [rev app]. rewrite G. reflexivity.
      * unfold new_file, path_of. cbn [f_path option_map]. unfold force_slash. rewrite G. reflexivity.
    + exfalso. destruct s as [|c s]; [congruence|]. cbn in St. apply N.eqb_eq in St. subst c.
      destruct (ends_with_slash (slash :: s)) eqn:E; [|cbn in S; discriminate]. destruct s as [|d s]; [cbn in B'; injection B' as _ <-; congruence|]. cbn in S. discriminate.
  - injection B as <- <-. split; [exact Nn|]. pose proof (ends_name [] s Cn Nn) as E. cbn [app] in E. rewrite E.
    pose proof (rsplit_spec s) as S. destruct (rsplit_once s) as [[p0 n0]|]; [|reflexivity]. destruct S as (E2 & _). rewrite E2, contains_app in Cn. cbn in Cn. rewrite orb_true_r in Cn. discriminate.
Qed.

(* ================= C49 ================= *)
Theorem C49_unique st i f j g : reachable st -> In (i, f) st -> In (j, g) st -> file_path f = file_path g -> i = j /\ f = g.
Proof.
  intros R I J E. apply reachable_inv in R. pose proof (v_files _ R) as F. rewrite Forall_forall in F. pose proof (F _ I) as Gf. pose proof (F _ J) as Gg. cbn in Gf, Gg.
  rewrite !file_path_good in E by assumption. rewrite (ends_inv _ (g_path _ Gf)), (ends_inv _ (g_path _ Gg)), <- !app_assoc in E. cbn [app] in E.
  destruct (split_unique _ _ _ _ E (g_name _ Gf) (g_name _ Gg)) as (E1 & E2).
  assert (P : path_of f = path_of g) by (rewrite (ends_inv _ (g_path _ Gf)), (ends_inv _ (g_path _ Gg)); congruence).
  destruct (g_key _ Gf) as (k & K). assert (K' : key_of g = Done k) by (unfold key_of in *; rewrite <- P, <- E2; exact K).
  assert (i = j) by (eapply (v_unique _ R); eassumption). subst j. split; [reflexivity|]. eapply same_id; [apply (v_sorted _ R)|eassumption..].
Qed.
(* the path a file reports finds it (rename allows the empty name: see below) *)
Theorem C49_load st i f : reachable st -> In (i, f) st -> f_name f <> [] ->
  exists g, find_file (file_path f) st = Done (Some (i, g)) /\ file_path g = file_path f /\ f_name g = f_name f.
Proof.
  intros R I Nn. apply reachable_inv in R. pose proof (v_files _ R) as F. rewrite Forall_forall in F. pose proof (F _ I) as G. cbn in G.
  exists (normalized f). split; [|split; apply normalized_same]. apply find_at; [exact R|exact I| |apply find_key_path; assumption].
  rewrite file_path_good by exact G. destruct (f_name f); [congruence|]. destruct (path_of f); discriminate.
Qed.
(* what is found is at the path asked for *)
Theorem C49_load_sound st s i g : reachable st -> str_ok s -> find_file s st = Done (Some (i, g)) ->
  file_path g = absolute s /\ exists f, In (i, f) st /\ file_path f = file_path g.
Proof.
  intros R O E. apply reachable_inv in R. unfold find_file in E. destruct s as [|c r] eqn:Es; [discriminate|]. rewrite <- Es in *.
  destruct (full_key (fst (find_key s)) (snd (find_key s))) as [k| |] eqn:K; try discriminate.
  destruct (List.find _ st) as [[j f]|] eqn:Fd; [|discriminate]. cbn in E. injection E as <- <-. apply find_some in Fd as (I & H). cbn in H. apply has_key_iff in H.
  pose proof (v_files _ R) as F. rewrite Forall_forall in F. pose proof (F _ I) as G. cbn in G. destruct (find_key_ok s O) as (O1 & O2). unfold key_of in H.
  destruct (full_key_inj _ _ _ _ _ O1 O2 (proj1 (g_ok _ G)) (proj2 (g_ok _ G)) K H) as (E1 & E2).
  destruct (normalized_same f) as (_ & _ & NP). rewrite NP. split; [|exists f; split; [exact I|reflexivity]].
  rewrite file_path_good by exact G. rewrite <- E1, <- E2. apply find_key_absolute.
Qed.
Theorem C49_create st s p n st' id : reachable st -> builder_new s = (p, n) -> create_file p n st = Done (st', id) -> str_ok s -> good_path s ->
  exists g, find_file s st' = Done (Some (id, g)) /\ file_path g = absolute s /\ forall f, ~ In (id, f) st.
Proof.
  intros R B C O G. pose proof (reachable_inv _ R) as V. unfold create_file in C. destruct (contains_slash n) eqn:Cn; [discriminate|]. destruct n as [|c n'] eqn:En; [discriminate|]. rewrite <- En in *. cbn [orb] in C.
  destruct (builder_key _ _ _ B Cn ltac:(subst n; discriminate) G) as (Ns & FK).
  destruct (find_key_ok s O) as (O1 & O2). rewrite FK in O1, O2. cbn [fst snd] in *.
  assert (PG : ends_with_slash (path_of (new_file p n)) = true) by (destruct p; cbn; [apply ends_force|reflexivity]).
  destruct (insert_inv (new_file p n) st st' id V PG Cn (conj O1 O2) C) as (V' & -> & Fr & K).
  assert (I : In (id, new_file p n) (st ++ [(id, new_file p n)])) by (apply in_app_iff; right; left; reflexivity).
  exists (normalized (new_file p n)). split; [apply find_at; assumption|]. split; [|exact Fr].
  destruct (normalized_same (new_file p n)) as (_ & _ & ->). rewrite <- find_key_absolute, FK. cbn [fst snd]. unfold file_path. rewrite force_id by exact PG. reflexivity.
Qed.
Theorem C49_move st i f np st' f' : reachable st -> In (i, f) st -> str_ok np -> move_to i f np st = Done (st', f') ->
  (ends_with_slash np = false -> good_path np) ->
  In (i, f') st' /\ file_path f' = destination f np /\ (forall j g, j <> i -> In (j, g) st' <-> In (j, g) st) /\
  (f_name f <> [] -> exists g, find_file (destination f np) st' = Done (Some (i, g))) /\
  (file_path f <> destination f np -> f_name f <> [] -> find_file (file_path f) st' = Done None).
Proof.
  intros R I O M G. pose proof (reachable_inv _ R) as V. pose proof (v_files _ V) as F. rewrite Forall_forall in F. pose proof (F _ I) as Gf. cbn in Gf.
  pose proof M as M0. unfold move_to in M. destruct (starts_with_slash np) eqn:Sn; [|discriminate]. destruct (moved f np) as [f2|] eqn:Mv; [|discriminate]. destruct (update_file i f f2 st) as [st2| |] eqn:Up; try discriminate. injection M as <- <-.
  destruct (moved_good _ _ _ Gf O Mv) as (A & B & C). destruct (update_inv _ _ _ _ _ V A B C Up) as (V' & I' & K' & Ot).
  assert (G2 : good_file f2) by (constructor; assumption).
  assert (D : file_path f2 = destination f np).
  { rewrite file_path_good by exact G2. unfold moved in Mv. unfold destination. destruct (ends_with_slash np) eqn:E.
    - injection Mv as <-. cbn [path_of f_path f_name]. destruct (1 <? length np)%nat eqn:L; [reflexivity|]. destruct np as [|c [|d np]]; [discriminate| |cbn in L; discriminate]. cbn in Sn. apply N.eqb_eq in Sn. subst c. reflexivity.
    - pose proof (rsplit_spec np) as S. destruct (rsplit_once np) as [[p n]|]; [|discriminate]. destruct S as (S1 & S2). injection Mv as <-. cbn [path_of f_path f_name].
      specialize (G eq_refl p n). unfold trimmed in G. rewrite E in G. specialize (G S1 S2). rewrite S1.
      destruct p as [|c p]; cbn [option_map]; [reflexivity|]. unfold force_slash, path_of. cbn [f_path]. rewrite G, <- app_assoc. reflexivity. }
  split; [exact I'|]. split; [exact D|]. split; [exact Ot|]. split.
  - intros Nn. assert (N2 : f_name f2 <> []).
    { unfold moved in Mv. destruct (ends_with_slash np) eqn:E; [injection Mv as <-; exact Nn|]. pose proof (rsplit_spec np) as S. destruct (rsplit_once np) as [[p n]|]; [|discriminate]. destruct S as (S1 & S2). injection Mv as <-. cbn. intros ->. rewrite S1, ends_app in E. discriminate. }
    exists (normalized f2). rewrite <- D. apply find_at; [exact V'|exact I'| |apply find_key_path; assumption].
    rewrite file_path_good by exact G2. destruct (f_name f2); [congruence|]. destruct (path_of f2); discriminate.
  - intros NE Nn. assert (Nf : file_path f <> []) by (rewrite file_path_good by exact Gf; destruct (f_name f); [congruence|]; destruct (path_of f); discriminate).
    unfold find_file. destruct (file_path f) as [|c r] eqn:Ef; [congruence|]. rewrite <- Ef in *. rewrite (find_key_path f Gf Nn). cbn [fst snd].
    destruct (g_key _ Gf) as (k & K). change (full_key (path_of f) (f_name f)) with (key_of f). rewrite K. destruct (List.find (fun p => has_key k (snd p)) st2) as [[j g]|] eqn:Fd; [|reflexivity]. exfalso.
    apply find_some in Fd as (J & H). cbn in H. apply has_key_iff in H. destruct (N.eq_dec j i) as [->|Nj].
    + assert (g = f2) by (eapply same_id; [apply (v_sorted _ V')|eassumption..]). subst g. unfold key_of in K, H.
      destruct (full_key_inj _ _ _ _ _ (proj1 (g_ok _ Gf)) (proj2 (g_ok _ Gf)) (proj1 (g_ok _ G2)) (proj2 (g_ok _ G2)) K H) as (E1 & E2).
      apply NE. rewrite <- D. rewrite !file_path_good by assumption. congruence.
    + apply Ot in J; [|exact Nj]. apply Nj. eapply (v_unique _ V); eassumption.
Qed.
Lemma builder_str_ok s : str_ok s -> op_ok (OCreate (fst (builder_new s)) (snd (builder_new s))).
Proof.
  intros O. unfold builder_new. destruct (starts_with_slash s); [|exact O]. set (s' := if _ && _ then _ else _).
  assert (O' : str_ok s'). { unfold s'. destruct (ends_with_slash s) eqn:E; [|exact O]. cbn [andb]. destruct (1 <? length s)%nat; [|exact O]. rewrite (ends_inv _ E) in O. apply str_ok_app in O. apply O. }
  pose proof (rsplit_spec s') as S. destruct (rsplit_once s') as [[p n]|]; [|exact O']. destruct S as (E & _). rewrite E in O'. apply str_ok_app in O' as (A & B). inversion B; subst.
  cbn [fst snd op_ok]. destruct p as [|c [|d p]]; [assumption| |split; assumption]. destruct (c =? slash); [assumption|split; assumption].
Qed.
Definition s_a_b : str := [47;97;47;98].           (* /a/b *)
Definition s_a__b : str := [47;97;47;47;98].       (* /a//b *)
Definition ex_created (s : str) : fstate := match create_file (fst (builder_new s)) (snd (builder_new s)) [] with Done (st, _) => st | _ => [] end.
Lemma ex_reachable s : str_okb s = true -> match create_file (fst (builder_new s)) (snd (builder_new s)) [] with Done _ => true | _ => false end = true -> reachable (ex_created s).
Proof.
  intros O E. unfold ex_created. destruct (create_file _ _ []) as [[st id]| |] eqn:C; try discriminate. eapply re_step; [constructor|apply builder_str_ok, str_okb_spec, O|]. econstructor. exact C.
Qed.
Ltac run e := let r := eval vm_compute in e in match r with Done (?a, _) => exists a end.
Example C49_example : reachable (ex_created s_a_b) /\ In (1, File (Some [47;97;47]) [98]) (ex_created s_a_b) /\ good_path s_a_b /\
  find_file s_a_b (ex_created s_a_b) = Done (Some (1, File (Some [47;97;47]) [98])) /\
  exists st', move_to 1 (File (Some [47;97;47]) [98]) [47;120;47] (ex_created s_a_b) = Done (st', File (Some [47;120;47]) [98]).
Proof.
  split; [apply ex_reachable; vm_compute; reflexivity|].
  split; [vm_compute; left; reflexivity|]. split; [|split; [vm_compute; reflexivity|]].
  2: { run (move_to 1 (File (Some [47;97;47]) [98]) [47;120;47] (ex_created s_a_b)). vm_compute. reflexivity. }
  intros p n E C. change (trimmed s_a_b) with ([47;97] ++ slash :: [98]) in E. destruct (split_unique _ _ _ _ E eq_refl C) as (<- & _). reflexivity.
Qed.
(* "/a//b" is stored as "/a/b": loading the path it was created with finds nothing *)
Theorem C49_double_slash_refuted : reachable (ex_created s_a__b) /\ ex_created s_a__b = [(1, File (Some [47;97;47]) [98])] /\
  find_file s_a__b (ex_created s_a__b) = Done None /\
  exists st', move_to 1 (File (Some [47;97;47]) [98]) [47;120;47;47;121] (ex_created s_a_b) = Done (st', File (Some [47;120;47]) [121]) /\ find_file [47;120;47;47;121] st' = Done None.
Proof.
  split; [apply ex_reachable; vm_compute; reflexivity|]. split; [reflexivity|]. split; [vm_compute; reflexivity|].
  run (move_to 1 (File (Some [47;97;47]) [98]) [47;120;47;47;121] (ex_created s_a_b)). split; vm_compute; reflexivity.
Qed.
(* rename accepts the empty name (create does not): the file's own path does not load *)
Theorem C49_empty_name_refuted : exists st', rename 1 (File (Some [47;97;47]) [98]) [] (ex_created s_a_b) = Done (st', File (Some [47;97;47]) []) /\
  file_path (File (Some [47;97;47]) []) = [47;97;47] /\ find_file [47;97;47] st' = Done None /\ create_file (Some [47;97;47]) [] [] = Fail InvalidName.
Proof. run (rename 1 (File (Some [47;97;47]) [98]) [] (ex_created s_a_b)). split; [vm_compute; reflexivity|]. split; [vm_compute; reflexivity|]. split; vm_compute; reflexivity. Qed.

(* ================= C60: load_or_create ================= *)
Lemma find_iff s k st : s <> [] -> full_key (fst (find_key s)) (snd (find_key s)) = Done k ->
  find_file s st = Done (option_map (fun p => (fst p, normalized (snd p))) (List.find (fun p => has_key k (snd p)) st)).
Proof. intros Ns K. unfold find_file. destruct s; [congruence|]. rewrite K. reflexivity. Qed.
(* creating at a path fails because of an existing file exactly when find finds one *)
Lemma create_find s st : good_path s ->
  match create_file (fst (builder_new s)) (snd (builder_new s)) st with
  | Done _ => find_file s st = Done None
  | Fail AlreadyExists => exists i g, find_file s st = Done (Some (i, g))
  | _ => True
  end.
Proof.
  intros G. destruct (builder_new s) as [p n] eqn:B. cbn [fst snd]. unfold create_file. destruct (contains_slash n) eqn:Cn; [exact I|]. destruct n as [|c n'] eqn:En; [exact I|]. rewrite <- En in *. cbn [orb].
  destruct (builder_key _ _ _ B Cn ltac:(subst n; discriminate) G) as (Ns & FK).
  unfold insert_file. destruct (key_of (new_file p n)) as [k| |] eqn:K; [|exact I|exact I].
  assert (K' : full_key (fst (find_key s)) (snd (find_key s)) = Done k) by (rewrite FK; exact K).
  pose proof (find_iff s k st Ns K') as E. destruct (List.find (fun p => has_key k (snd p)) st) as [[i g]|] eqn:Fd.
  - destruct (existsb (fun p0 => has_key k (snd p0)) st) eqn:X; [exists i, (normalized g); exact E|]. exfalso. apply find_some in Fd as (J & H). rewrite <- not_true_iff_false, existsb_exists in X. apply X. exists (i, g). split; assumption.
  - assert (X : existsb (fun p0 => has_key k (snd p0)) st = false).
    { apply not_true_iff_false. rewrite existsb_exists. intros (x & J & H). pose proof (find_none _ _ Fd x J) as H'. cbn beta in H'. congruence. }
    rewrite X. destruct (next_id u32_mod (last_id st)); [exact E|exact I].
Qed.
Lemma create_again s st st' id : create_file (fst (builder_new s)) (snd (builder_new s)) st = Done (st', id) -> create_file (fst (builder_new s)) (snd (builder_new s)) st' = Fail AlreadyExists.
Proof.
  unfold create_file. destruct (_ || _); [discriminate|]. unfold insert_file. destruct (key_of _) as [k| |] eqn:K; try discriminate. destruct (existsb _ st); [discriminate|]. destruct (next_id _ _); [|discriminate]. intros [= <- <-].
  rewrite existsb_app. cbn [existsb snd]. rewrite (proj2 (has_key_iff k _) K). rewrite orb_true_l, orb_true_r. reflexivity.
Qed.
(* the file at the path is returned, created only if there was none, and the same
   call again returns the same file (asking with expect_present too) *)
Theorem C60_load_or_create st s e st' id : reachable st -> str_ok s -> good_path s -> load_or_create s e st = Done (st', id) ->
  reachable st' /\ (exists g, find_file s st' = Done (Some (id, g)) /\ file_path g = absolute s) /\
  (st' = st \/ find_file s st = Done None /\ exists f, st' = st ++ [(id, f)]) /\
  forall e', e' = e \/ e' = true -> load_or_create s e' st' = Done (st', id).
Proof.
  intros R O G L. unfold load_or_create in L. pose proof (create_find s st G) as CF.
  destruct (create_file (fst (builder_new s)) (snd (builder_new s)) st) as [[st1 id1]|er|] eqn:C.
  - (* would create: nothing was found *)
    rewrite CF in L. assert (L' : Done (st1, id1) = Done (st', id) :> outcome (fstate * N) ferr) by (destruct e; exact L). injection L' as <- <-. clear L.
    destruct (builder_new s) as [p n] eqn:B. destruct (C49_create st s p n st1 id1 R B C O G) as (g & Fg & Pg & Fr).
    assert (R' : reachable st1). { eapply re_step; [exact R| |eapply p_create; exact C]. pose proof (builder_str_ok s O) as Q. rewrite B in Q. exact Q. }
    split; [exact R'|]. split; [exists g; split; assumption|]. split.
    + right. split; [exact CF|]. cbn [fst snd] in C. unfold create_file in C. destruct (_ || _); [discriminate|]. unfold insert_file in C. destruct (key_of _); try discriminate. destruct (existsb _ st); [discriminate|]. destruct (next_id _ _) as [i|]; [|discriminate]. injection C as <- <-. eexists. reflexivity.
    + intros e' _. unfold load_or_create. rewrite Fg, B. rewrite <- (f_equal fst B), <- (f_equal snd B) in C. destruct e'; [reflexivity|]. pose proof (create_again s st st1 id1 C) as CA. rewrite B in CA. rewrite CA. reflexivity.
  - assert (Q : exists g, find_file s st = Done (Some (id, g)) /\ st' = st /\ (e = false -> er = AlreadyExists)).
    { destruct e.
      - destruct (find_file s st) as [[[i g]|]| |] eqn:Fd; try discriminate; [injection L as <- <-; exists g; repeat split; discriminate|].
        destruct er; try discriminate.
      - destruct er; try discriminate. destruct (find_file s st) as [[[i g]|]| |] eqn:Fd; try discriminate. injection L as <- <-. exists g. repeat split. }
    destruct Q as (g & Fd & -> & Er). split; [exact R|]. split; [exists g; split; [exact Fd|apply (C49_load_sound _ _ _ _ R O Fd)]|]. split; [left; reflexivity|].
    intros e' He. unfold load_or_create. rewrite Fd, C. destruct e'; [reflexivity|]. destruct e; [destruct He; discriminate|]. rewrite (Er eq_refl). reflexivity.
  - destruct e; [|discriminate]. destruct (find_file s st) as [[[i g]|]| |] eqn:Fd; try discriminate. injection L as <- <-.
    split; [exact R|]. split; [exists g; split; [exact Fd|apply (C49_load_sound _ _ _ _ R O Fd)]|]. split; [left; reflexivity|].
    intros e' He. assert (e' = true) by tauto. subst e'. unfold load_or_create. rewrite Fd. reflexivity.
Qed.
Example C60_example : good_path s_a_b /\ load_or_create s_a_b false [] = Done (ex_created s_a_b, 1) /\ ex_created s_a_b <> [] /\
  load_or_create s_a_b false (ex_created s_a_b) = Done (ex_created s_a_b, 1).
Proof.
  split; [apply C49_example|]. split; [vm_compute; reflexivity|]. split; [vm_compute; discriminate|vm_compute; reflexivity].
Qed.
(* with an empty component before the name the second call reports the file as deleted *)
Theorem C60_double_slash_refuted : load_or_create s_a__b false [] = Done (ex_created s_a__b, 1) /\
  load_or_create s_a__b false (ex_created s_a__b) = Fail Deleted /\ load_or_create s_a__b true (ex_created s_a__b) = Fail Deleted.
Proof. split; [|split]; vm_compute; reflexivity. Qed.
Print Assumptions C49_unique.
Print Assumptions C49_load.
Print Assumptions C49_load_sound.
Print Assumptions C49_create.
Print Assumptions C49_move.
Print Assumptions C49_double_slash_refuted.
Print Assumptions C49_empty_name_refuted.
Print Assumptions C60_load_or_create.
Print Assumptions C60_double_slash_refuted.
