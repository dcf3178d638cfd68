(* C50: the buffered appender. C57: deleting files. *)
From Verif Require Import Base Key KeyProofs Files FilesProofs FilesRead PropFiles.
From Coq Require Import Permutation Sorted ZifyBool.
Local Open Scope nat_scope.

(* ================= C50 ================= *)
(* The calls made on one appender for file f, interleaved with whatever other
   clients do to other files. [arun a db acc a' db']: after the calls the
   appender is a', the database db', and [acc] is the concatenation of the bytes
   the write calls reported as accepted (their first k bytes). *)
Inductive arun (bs : nat) (f : N) : appender -> fdb -> bytes -> appender -> fdb -> Prop :=
| a_nil a db : arun bs f a db [] a db
| a_write a db t data a1 db1 k acc a' db' : write bs data t a db = Done (a1, db1, k) ->
    arun bs f a1 db1 acc a' db' -> arun bs f a db (firstn k data ++ acc) a' db'
| a_write_fails a db t data e acc a' db' : write bs data t a db = Fail e -> arun bs f a db acc a' db' -> arun bs f a db acc a' db'
| a_flush a db t a1 db1 acc a' db' : flush bs t a db = Done (a1, db1) -> arun bs f a1 db1 acc a' db' -> arun bs f a db acc a' db'
| a_flush_fails a db t e acc a' db' : flush bs t a db = Fail e -> arun bs f a db acc a' db' -> arun bs f a db acc a' db'
| a_resize a db t n a1 db1 acc a' db' : set_buffer_size bs n t a db = Done (a1, db1) -> arun bs f a1 db1 acc a' db' -> arun bs f a db acc a' db'
| a_resize_fails a db t n e acc a' db' : set_buffer_size bs n t a db = Fail e -> arun bs f a db acc a' db' -> arun bs f a db acc a' db'
| a_other a db es db1 acc a' db' : runs bs db es db1 -> Forall (fun e => about e <> Some f) es -> arun bs f a db1 acc a' db' -> arun bs f a db acc a' db'.

Definition content (db : fdb) (f : N) : bytes := data_of (entries f (blocks db)).
Lemma reads_as_unique bs db f c : wf bs db -> reads_as bs db f c -> c = content db f.
Proof.
  intros W RA. destruct (RA (by_file f db) 0 (Permutation_refl _)) as (_ & _ & RE). destruct (RE (fun _ => 1) ltac:(intros; cbn; lia)) as (m1 & E1).
  destruct (reads_as_wf bs db f W (by_file f db) 0 (Permutation_refl _)) as (_ & _ & RE2). destruct (RE2 (fun _ => 1) ltac:(intros; cbn; lia)) as (m2 & E2).
  specialize (E1 (m1 + m2) 3 ltac:(lia) ltac:(lia)). specialize (E2 (m1 + m2) 3 ltac:(lia) ltac:(lia)). rewrite E1 in E2. injection E2 as E2. exact E2.
Qed.
Lemma chunks_count bs data : 0 < bs -> length (chunks bs data) <= length data.
Proof.
  intros H. rewrite <- (chunks_concat bs data) at 2 by exact H. pose proof (chunks_aux_ok bs (length data) data H) as F. fold (chunks bs data) in F.
  induction F as [|c r' Fc F IH]; cbn; [lia|]. rewrite app_length. lia.
Qed.
Lemma flush_spec bs t a db a1 db1 : 0 < bs -> wf bs db -> flush bs t a db = Done (a1, db1) ->
  wf bs db1 /\ a1 = Appender (a_file a) [] (a_capacity a) /\ content db1 (a_file a) = content db (a_file a) ++ a_buffer a /\
  forall g, g <> a_file a -> content db1 g = content db g.
Proof.
  intros Hb W. unfold flush. destruct (append bs (a_buffer a) (a_file a) t db) as [d| |] eqn:A; try discriminate. intros [= <- <-].
  destruct (append_spec bs _ _ _ _ _ Hb W A) as (W' & _ & E). split; [exact W'|]. split; [reflexivity|]. unfold content. split.
  - rewrite E, N.eqb_refl. reflexivity.
  - intros g Ng. rewrite E. replace (g =? a_file a)%N with false by lia. apply app_nil_r.
Qed.
Lemma runs_other bs f db es db' : 0 < bs -> wf bs db -> runs bs db es db' -> Forall (fun e => about e <> Some f) es -> wf bs db' /\ content db' f = content db f.
Proof.
  intros Hb W R F. split; [eapply runs_wf; eassumption|]. induction R as [|db e db1 r db2 S R IH]; [reflexivity|]. inversion F; subst.
  destruct (step_spec _ _ _ _ Hb W S) as (W1 & O1). rewrite IH by assumption. apply O1. assumption.
Qed.
Lemma write_spec bs data t a db a1 db1 k : 0 < bs -> wf bs db -> (a_capacity a = 0 -> a_buffer a = []) -> write bs data t a db = Done (a1, db1, k) ->
  wf bs db1 /\ a_file a1 = a_file a /\ (a_capacity a1 = 0 -> a_buffer a1 = []) /\ k <= length data /\
  content db1 (a_file a) ++ a_buffer a1 = content db (a_file a) ++ a_buffer a ++ firstn k data /\
  forall g, g <> a_file a -> content db1 g = content db g.
Proof.
  intros Hb W I. unfold write. destruct (Nat.eqb_spec (a_capacity a) 0) as [C0|C0].
  - intros [= <- <- <-]. cbn. split; [exact W|]. split; [reflexivity|]. split; [|split; [lia|split; [reflexivity|reflexivity]]].
    intros D. rewrite (I C0). rewrite D. rewrite Nat.min_0_r. reflexivity.
  - destruct (Nat.eqb_spec (a_capacity a) (length (a_buffer a))) as [CL|CL].
    + destruct (flush bs t a db) as [[a' db']| |] eqn:Fl; try discriminate. destruct (flush_spec _ _ _ _ _ _ Hb W Fl) as (W' & -> & E & O). cbn. intros [= <- <- <-]. cbn.
      split; [exact W'|]. split; [reflexivity|]. split; [lia|]. split; [lia|]. split; [|exact O]. rewrite E, <- app_assoc. reflexivity.
    + intros [= <- <- <-]. cbn. split; [exact W|]. split; [reflexivity|]. split; [lia|]. split; [lia|]. split; reflexivity.
Qed.
Lemma arun_spec bs f a db acc a' db' : 0 < bs -> wf bs db -> a_file a = f -> (a_capacity a = 0 -> a_buffer a = []) -> arun bs f a db acc a' db' ->
  wf bs db' /\ a_file a' = f /\ (a_capacity a' = 0 -> a_buffer a' = []) /\ content db' f ++ a_buffer a' = content db f ++ a_buffer a ++ acc.
Proof.
  intros Hb W Ef I R. induction R as [a db|a db t data a1 db1 k acc a' db' Wr R IH|a db t data e acc a' db' Wr R IH|a db t a1 db1 acc a' db' Fl R IH|a db t e acc a' db' Fl R IH|a db t n a1 db1 acc a' db' Fl R IH|a db t n e acc a' db' Fl R IH|a db es db1 acc a' db' Ru Fo R IH].
  - rewrite app_nil_r. repeat split; assumption || apply W.
  - destruct (write_spec _ _ _ _ _ _ _ _ Hb W I Wr) as (W1 & F1 & I1 & _ & E1 & _). rewrite Ef in *. destruct (IH W1 F1 I1) as (W' & F' & I' & E'). repeat split; try assumption; try apply W'.
    rewrite E'. rewrite !app_assoc. rewrite E1. rewrite <- !app_assoc. reflexivity.
  - apply IH; assumption.
  - destruct (flush_spec _ _ _ _ _ _ Hb W Fl) as (W1 & -> & E1 & _). rewrite Ef in *. destruct (IH W1 eq_refl (fun _ => eq_refl)) as (W' & F' & I' & E'). repeat split; try assumption; try apply W'.
    rewrite E', E1. cbn. rewrite <- app_assoc. reflexivity.
  - apply IH; assumption.
  - unfold set_buffer_size in Fl. destruct (Nat.ltb_spec 0 (a_capacity a)) as [C|C].
    + destruct (flush bs t a db) as [[a2 db2]| |] eqn:Fl2; try discriminate. injection Fl as <- <-. destruct (flush_spec _ _ _ _ _ _ Hb W Fl2) as (W1 & -> & E1 & _). rewrite Ef in *.
      destruct (IH W1 eq_refl (fun _ => eq_refl)) as (W' & F' & I' & E'). repeat split; try assumption; try apply W'. rewrite E', E1. cbn. rewrite <- app_assoc. reflexivity.
    + injection Fl as <- <-. destruct (IH W Ef (fun _ => eq_refl)) as (W' & F' & I' & E'). repeat split; try assumption; try apply W'. rewrite E', (I ltac:(lia)). reflexivity.
  - apply IH; assumption.
  - destruct (runs_other _ _ _ _ _ Hb W Ru Fo) as (W1 & E1). rewrite <- E1. apply IH; assumption.
Qed.

(* Whatever the pieces, capacities and interleavings: what is in the file plus
   what is still buffered is the old contents plus the accepted bytes; a flush
   that succeeds makes the file exactly that, and so does dropping the appender
   while the file exists (and block ids are left). *)
Theorem C50_buffered bs es f db acc a' db' c0 : 0 < bs -> runs bs empty_db es db -> reads_as bs db f c0 ->
  arun bs f (append_buffered f) db acc a' db' ->
  (exists written, c0 ++ acc = written ++ a_buffer a' /\ reads_as bs db' f written) /\
  (forall t a'' db'', flush bs t a' db' = Done (a'', db'') -> reads_as bs db'' f (c0 ++ acc) /\ a_buffer a'' = []) /\
  (forall t fl, lookup f (files db') = Some fl -> (match last_id (blocks db') with None => 0 | Some n => n end + N.of_nat (length (a_buffer a')) < u64_mod)%N ->
     reads_as bs (drop_appender bs t a' db') f (c0 ++ acc)).
Proof.
  intros Hb R RA AR. assert (W := runs_wf _ _ _ _ Hb (wf_empty bs) R). rewrite (reads_as_unique _ _ _ _ W RA).
  destruct (arun_spec bs f (append_buffered f) db acc a' db' Hb W eq_refl (fun _ => eq_refl) AR) as (W' & F' & I' & E'). cbn [append_buffered a_buffer app] in E'.
  assert (FL : forall t a'' db'', flush bs t a' db' = Done (a'', db'') -> reads_as bs db'' f (content db f ++ acc) /\ a_buffer a'' = []).
  { intros t a'' db'' Fl. destruct (flush_spec _ _ _ _ _ _ Hb W' Fl) as (W2 & -> & E2 & _). split; [|reflexivity]. rewrite F' in *. rewrite <- E', <- E2. apply reads_as_wf, W2. }
  split; [exists (content db' f); split; [symmetry; exact E'|apply reads_as_wf, W']|]. split; [exact FL|].
  intros t fl L Ids. unfold drop_appender. destruct (flush bs t a' db') as [[a'' db'']|e|] eqn:Fl; [apply (FL t a'' db''); exact Fl| |].
  - exfalso. unfold flush in Fl. rewrite F' in *.
    unfold append in Fl. destruct (a_buffer a') as [|x r] eqn:ED; [discriminate|]. rewrite <- ED in *. destruct bs as [|bs']; [lia|]. rewrite L in Fl.
    assert (CL : (length (map (fun c => block_bytes c f t) (chunks (S bs') (a_buffer a'))) <= length (a_buffer a'))).
    { rewrite List.map_length. apply chunks_count. lia. }
    destruct (insert_blocks_ok (map (fun c => block_bytes c f t) (chunks (S bs') (a_buffer a'))) (blocks db')) as (l' & E); [|rewrite E in Fl; discriminate].
    destruct (last_id (blocks db')); lia.
  - exfalso. unfold flush, append in Fl. destruct (a_buffer a') as [|x r] eqn:ED; [discriminate|]. destruct bs as [|bs']; [lia|]. destruct (lookup (a_file a') (files db')); [|discriminate]. destruct (insert_blocks _ _); discriminate.
Qed.
(* write always accepts something (so write_all terminates) when the block size
   is at most 1 MiB *)
Theorem C50_progress bs es f db acc a db1 data t a1 db2 k : 0 < bs -> (N.of_nat bs <= 1048576)%N -> runs bs empty_db es db ->
  arun bs f (append_buffered f) db acc a db1 -> write bs data t a db1 = Done (a1, db2, k) -> data <> [] -> 0 < k.
Proof.
  intros Hb HB R AR Wr Nd.
  assert (LI : forall a db acc a' db', arun bs f a db acc a' db' -> length (a_buffer a) <= a_capacity a -> length (a_buffer a') <= a_capacity a').
  { assert (FLU : forall t a db a1 db1, flush bs t a db = Done (a1, db1) -> a1 = Appender (a_file a) [] (a_capacity a)) by (intros t0 a0 db0 a2 db3; unfold flush; destruct (append _ _ _ _ _); try discriminate; intros [= <- <-]; reflexivity).
    clear - FLU. intros a db acc a' db' R. induction R as [a db|a db t data a1 db1 k acc a' db' Wr R IH|a db t data e acc a' db' Wr R IH|a db t a1 db1 acc a' db' Fl R IH|a db t e acc a' db' Fl R IH|a db t n a1 db1 acc a' db' Fl R IH|a db t n e acc a' db' Fl R IH|a db es db1 acc a' db' Ru Fo R IH]; intros L; try (apply IH; exact L); [exact L| | |].
    - apply IH. clear IH. unfold write in Wr. destruct (Nat.eqb_spec (a_capacity a) 0) as [C0|C0].
      + injection Wr as <- <- <-. cbn. rewrite app_length, firstn_length. assert (length (a_buffer a) = 0) by lia. lia.
      + destruct (Nat.eqb_spec (a_capacity a) (length (a_buffer a))) as [CL|CL].
        * destruct (flush bs t a db) as [[a2 db2]| |] eqn:Fl; try discriminate. injection Wr as <- <- <-. rewrite (FLU _ _ _ _ _ Fl). cbn. rewrite firstn_length. lia.
        * injection Wr as <- <- <-. cbn. rewrite app_length, firstn_length. lia.
    - apply IH. rewrite (FLU _ _ _ _ _ Fl). cbn. lia.
    - apply IH. unfold set_buffer_size in Fl. destruct (0 <? a_capacity a); [destruct (flush bs t a db) as [[a2 db2]| |] eqn:Fl2; try discriminate|]; injection Fl as <- <-; cbn; lia. }
  specialize (LI _ _ _ _ _ AR ltac:(cbn; lia)).
  assert (LD : 0 < length data) by (destruct data; [congruence|cbn; lia]).
  unfold write in Wr. destruct (Nat.eqb_spec (a_capacity a) 0) as [C0|C0].
  - injection Wr as <- <- <-. cbn [a_capacity a_buffer]. assert (BE : length (a_buffer a) = 0) by lia. rewrite BE.
    assert (0 < default_capacity bs); [|lia]. unfold default_capacity.
    assert (1 <= 1048576 / N.of_nat bs)%N by (apply N.div_le_lower_bound; lia).
    assert (0 < 1048576 / N.of_nat bs * N.of_nat bs)%N by (apply N.mul_pos_pos; lia). lia.
  - destruct (Nat.eqb_spec (a_capacity a) (length (a_buffer a))) as [CL|CL].
    + destruct (flush bs t a db1) as [[a2 db3]| |] eqn:Fl; try discriminate. injection Wr as <- <- <-.
      unfold flush in Fl. destruct (append _ _ _ _ _); try discriminate. injection Fl as <- <-. cbn. lia.
    + injection Wr as <- <- <-. lia.
Qed.
Definition ex_db3 : fdb := FDb ex_files [].
Definition ex_run : outcome (appender * fdb) ferr :=
  match set_buffer_size 2 3 1%Z (append_buffered 0) ex_db3 with
  | Done (a1, d1) =>
      match write 2 [1;2]%N 2%Z a1 d1 with
      | Done (a2, d2, _) =>
          match write 2 [3;4]%N 3%Z a2 d2 with
          | Done (a3, d3, k) => match write 2 (skipn k [3;4]%N) 4%Z a3 d3 with Done (a4, d4, _) => Done (a4, d4) | Fail e => Fail e | Panic => Panic end
          | Fail e => Fail e | Panic => Panic end
      | Fail e => Fail e | Panic => Panic end
  | Fail e => Fail e | Panic => Panic
  end.
Example C50_example : exists a' db', ex_run = Done (a', db') /\ arun 2 0 (append_buffered 0) ex_db3 [1;2;3;4]%N a' db' /\ runs 2 empty_db [FilesChanged] ex_db3 /\
  a_buffer a' = [4]%N /\ length (blocks db') = 2 /\ lookup 0%N (files db') <> None.
Proof.
  let r := eval vm_compute in ex_run in match r with Done (?x, ?y) => exists x, y end.
  split; [vm_compute; reflexivity|]. split.
  - eapply a_resize with (t := 1%Z) (n := 3); [vm_compute; reflexivity|].
    change ([1;2;3;4]%N) with (firstn 2 [1;2]%N ++ firstn 1 [3;4]%N ++ firstn 1 [4]%N ++ []).
    eapply a_write with (t := 2%Z); [vm_compute; reflexivity|]. eapply a_write with (t := 3%Z); [vm_compute; reflexivity|]. eapply a_write with (t := 4%Z); [vm_compute; reflexivity|]. constructor.
  - split; [eapply r_cons; [apply (s_files 2 empty_db ex_files); repeat constructor|constructor]|]. vm_compute. repeat split. discriminate.
Qed.
(* a block size above 1 MiB: 1 MiB / BLOCK_SIZE * BLOCK_SIZE = 0, write accepts
   nothing and write_all fails with WriteZero *)
Theorem C50_large_block_refuted : forall bs, (1048576 < N.of_nat bs)%N -> forall data db t, exists a1, write bs data t (append_buffered 0) db = Done (a1, db, 0).
Proof.
  intros bs H data db t. unfold write. cbn [append_buffered a_capacity Nat.eqb a_buffer a_file].
  assert (D : default_capacity bs = 0) by (unfold default_capacity; rewrite N.div_small by exact H; reflexivity).
  rewrite D. cbn [length Nat.sub]. rewrite Nat.min_0_r. eexists. reflexivity.
Qed.

(* ================= C57 ================= *)
(* creating, changing and deleting files, with delete's two transactions next to
   each other *)
Inductive fop := DAppend (f : N) (data : bytes) | DTruncate (f : N) (n : nat) (side : truncate_from) | DDelete (f : N) | DCreate (id : N) | DUpdate (f : N).
Inductive fstep (bs : nat) : fdb -> fop -> fdb -> Prop :=
| d_append db f d t db' : append bs d f t db = Done db' -> fstep bs db (DAppend f d) db'
| d_truncate db f q n side db' : Permutation q (by_file f db) -> apply_deletes (truncate_ops (for_file_of q) n side) db = Done db' -> fstep bs db (DTruncate f n side) db'
| d_delete db f q db1 db' : Permutation q (by_file f db) -> apply_deletes q db = Done db1 -> delete_file_doc f db1 = Done db' -> fstep bs db (DDelete f) db'
| d_create db id fl : next_id u32_mod (last_id (files db)) = Some id -> fstep bs db (DCreate id) (FDb (files db ++ [(id, fl)]) (blocks db))
| d_update db f fl : fstep bs db (DUpdate f) (FDb (map (fun p => if (fst p =? f)%N then (f, fl) else p) (files db)) (blocks db)).
Inductive fruns (bs : nat) : fdb -> list fop -> fdb -> Prop :=
| f_nil db : fruns bs db [] db
| f_cons db o db1 r db2 : fstep bs db o db1 -> fruns bs db1 r db2 -> fruns bs db (o :: r) db2.

Lemma update_ids f fl (l : list (N * file)) : map fst (map (fun p => if (fst p =? f)%N then (f, fl) else p) l) = map fst l.
Proof. induction l as [|[i a] r IH]; cbn; [reflexivity|]. rewrite IH. destruct (N.eqb_spec i f); cbn; congruence. Qed.
Lemma lookup_none {A} id (l : list (N * A)) : lookup id l = None <-> ~ In id (map fst l).
Proof.
  induction l as [|[i a] r IH]; cbn; [tauto|]. destruct (N.eqb_spec id i) as [->|N]; [split; [discriminate|tauto]|]. rewrite IH. split; [intros H [|]; [congruence|tauto]|tauto].
Qed.
Lemma delete_id_fst {A} id (l : list (N * A)) x : In x (map fst (delete_id id l)) <-> In x (map fst l) /\ x <> id.
Proof.
  induction l as [|[i a] r IH]; cbn; [tauto|]. destruct (N.eqb_spec id i) as [->|N]; cbn; rewrite IH; [split; [tauto|intros ([|] & ?); [congruence|tauto]]|]. split; [intros [->|]; [split; [tauto|congruence]|tauto]|tauto].
Qed.
Lemma next_id_above' (l : list (N * file)) id : StronglySorted N.lt (map fst l) -> next_id u32_mod (last_id l) = Some id -> (forall y, In y (map fst l) -> (y < id)%N) /\ (id < u32_mod)%N.
Proof.
  destruct l as [|p r _] using rev_ind; [cbn; intros _ [= <-]; split; [intros y []|reflexivity]|]. rewrite last_id_app. cbn [next_id].
  destruct (N.ltb_spec (fst p + 1) u32_mod); [|discriminate]. intros S [= <-]. split; [|assumption]. intros y Hy.
  rewrite map_app in *. cbn in *. apply in_app_iff in Hy as [Hy|[<-|[]]]; [|lia].
  assert (y < fst p)%N; [|lia].
  revert S Hy. generalize (map fst r). clear. induction l as [|a l IH]; cbn; intros S E; [destruct E|]. destruct E as [E|E]; inversion S as [|? ? S1 F]; subst.
  - rewrite Forall_forall in F. apply F. apply in_app_iff. right. left. reflexivity.
  - apply IH; assumption.
Qed.
Definition blocks_have_files (db : fdb) : Prop := forall id b, In (id, b) (blocks db) -> lookup (map_file_id b) (files db) <> None.
Record inv (bs : nat) (db : fdb) : Prop := { i_wf : wf bs db; i_files : StronglySorted N.lt (map fst (files db)); i_owned : blocks_have_files db }.
Lemma sorted_filter_ids (id : N) (l : list (N * file)) : StronglySorted N.lt (map fst l) -> StronglySorted N.lt (map fst (delete_id id l)).
Proof. apply delete_id_sorted. Qed.
Lemma owned_sub db bl : blocks_have_files db -> (forall p, In p bl -> In p (blocks db)) -> blocks_have_files (FDb (files db) bl).
Proof. intros O S id b I. apply (O id). apply S, I. Qed.
Lemma entries_sub g (db db' : fdb) : (forall f, f <> g -> entries f (blocks db') = entries f (blocks db)) -> (forall p, In p (entries g (blocks db')) -> In p (blocks db)) -> forall p, In p (blocks db') -> In p (blocks db).
Proof.
  intros O G p I. destruct (N.eq_dec (map_file_id (snd p)) g) as [E|E].
  - apply G. apply filter_In. split; [exact I|]. apply N.eqb_eq, E.
  - assert (X : In p (entries (map_file_id (snd p)) (blocks db'))) by (apply filter_In; split; [exact I|apply N.eqb_eq; reflexivity]). rewrite (O _ E) in X. apply filter_In in X. apply X.
Qed.
Lemma delete_blocks_sub ds : forall bl bl' p, delete_blocks ds bl = Done bl' -> In p bl' -> In p bl.
Proof.
  induction ds as [|d r IH]; cbn; intros bl bl' p; [intros [= <-]; tauto|]. destruct (lookup (bi_id d) bl) as [c|]; [|discriminate]. destruct (bytes_eqb c (bi_rev d)); [|discriminate].
  intros H I. specialize (IH _ _ _ H I). apply filter_In in IH. apply IH.
Qed.
Lemma apply_deletes_sub ds db db' : apply_deletes ds db = Done db' -> files db' = files db /\ forall p, In p (blocks db') -> In p (blocks db).
Proof. unfold apply_deletes. destruct (delete_blocks ds (blocks db)) as [bl| |] eqn:E; try discriminate. intros [= <-]. split; [reflexivity|]. intros p I. eapply delete_blocks_sub; eassumption. Qed.
Lemma fstep_inv bs db o db' : 0 < bs -> inv bs db -> fstep bs db o db' -> inv bs db'.
Proof.
  intros Hb [W S O] St. destruct St as [db f d t db' A|db f q n side db' P A|db f q db1 db' P A D|db id fl Nx|db f fl].
  - destruct (append_spec bs d f t db db' Hb W A) as (W' & Fi & E). constructor; [exact W'|rewrite Fi; exact S|].
    unfold append in A. destruct d as [|x d]; [injection A as <-; exact O|]. destruct bs; [lia|]. destruct (lookup f (files db)) eqn:L; [|discriminate].
    destruct (insert_blocks _ _) as [l|] eqn:Ei; [|discriminate]. injection A as <-. destruct (insert_blocks_spec _ _ _ (wf_sorted _ _ W) Ei) as (new & -> & M & _). cbn [files blocks] in *.
    intros id b I. apply in_app_iff in I as [I|I]; [exact (O id b I)|]. cbn [files].
    assert (Ib : In b (map snd new)) by (change b with (snd (id, b)); apply in_map, I). rewrite M in Ib. apply in_map_iff in Ib as (c & <- & _).
    rewrite block_file_id; [congruence|]. pose proof (wf_files _ _ W) as F. rewrite Forall_forall in F. apply F.
    destruct (in_dec N.eq_dec f (map fst (files db))) as [Y|Y]; [exact Y|]. apply lookup_none in Y. congruence.
  - destruct (truncate_spec bs f n side db q Hb W P) as (db2 & A2 & W' & _). rewrite A in A2. injection A2 as <-. destruct (apply_deletes_sub _ _ _ A) as (Fi & Su). constructor; [exact W'|rewrite Fi; exact S|].
    intros id b I. rewrite Fi. apply (O id). apply Su, I.
  - destruct (delete_for_file_spec bs f db q W P) as (db2 & A2 & W' & _ & _ & En). rewrite A in A2. injection A2 as <-. destruct (apply_deletes_sub _ _ _ A) as (Fi & Su).
    unfold delete_file_doc in D. destruct (lookup f (files db1)); [|discriminate]. injection D as <-. constructor; cbn [files blocks].
    + constructor; cbn; [apply (wf_sorted _ _ W')|apply (wf_blocks _ _ W')|]. pose proof (wf_files _ _ W') as F. rewrite Forall_forall in *. intros x Hx. apply F. apply delete_id_fst in Hx. tauto.
    + rewrite Fi. apply delete_id_sorted, S.
    + intros id b I. cbn in *. specialize (O id b (Su _ I)). rewrite Fi. intros X. apply lookup_none in X. rewrite delete_id_fst in X.
      assert (Y : In (map_file_id b) (map fst (files db))) by (destruct (in_dec N.eq_dec (map_file_id b) (map fst (files db))) as [Y|Y]; [exact Y|apply lookup_none in Y; congruence]).
      destruct (N.eq_dec (map_file_id b) f) as [E|E]; [|tauto].
      assert (Z : In (id, b) (entries f (blocks db1))) by (apply filter_In; split; [exact I|apply N.eqb_eq; exact E]). rewrite En in Z. exact Z.
  - destruct (next_id_above' _ _ S Nx) as (Ab & Bd). constructor; cbn [files blocks].
    + constructor; cbn; [apply (wf_sorted _ _ W)|apply (wf_blocks _ _ W)|]. rewrite map_app, Forall_app. split; [apply (wf_files _ _ W)|]. repeat constructor. exact Bd.
    + rewrite map_app. apply sorted_app_one; assumption.
    + intros i b I X. apply lookup_none in X. cbn [files] in X. rewrite map_app, in_app_iff in X. apply (O i b I). apply lookup_none. tauto.
  - constructor; cbn [files blocks].
    + constructor; cbn; [apply (wf_sorted _ _ W)|apply (wf_blocks _ _ W)|]. rewrite update_ids. apply (wf_files _ _ W).
    + rewrite update_ids. exact S.
    + intros i b I X. apply lookup_none in X. cbn [files] in X. rewrite update_ids in X. apply (O i b I). apply lookup_none. exact X.
Qed.
Lemma inv_empty bs : inv bs empty_db.
Proof. constructor; [apply wf_empty|constructor|intros id b []]. Qed.
Lemma fruns_inv bs db os db' : 0 < bs -> inv bs db -> fruns bs db os db' -> inv bs db'.
Proof. intros Hb I R. induction R as [|db o db1 r db2 S R IH]; [exact I|]. apply IH. eapply fstep_inv; eassumption. Qed.

(* every stored block belongs to a file that exists; deleting an existing file
   works and leaves no block of it, and nothing can be appended to it *)
Theorem C57_no_orphans bs os db : 0 < bs -> fruns bs empty_db os db ->
  forall id b, In (id, b) (blocks db) -> lookup (map_file_id b) (files db) <> None.
Proof. intros Hb R. apply (i_owned bs), (fruns_inv _ _ _ _ Hb (inv_empty bs) R). Qed.
Theorem C57_delete bs os db f fl q : 0 < bs -> fruns bs empty_db os db -> lookup f (files db) = Some fl -> Permutation q (by_file f db) ->
  exists db1 db', apply_deletes q db = Done db1 /\ delete_file_doc f db1 = Done db' /\
    (forall id b, In (id, b) (blocks db') -> map_file_id b <> f) /\ reads_as bs db' f [] /\
    (forall g d, g <> f -> reads_as bs db g d -> reads_as bs db' g d) /\
    (forall data t, data <> [] -> append bs data f t db' = Fail DocumentNotFound).
Proof.
  intros Hb R L P. pose proof (fruns_inv _ _ _ _ Hb (inv_empty bs) R) as [W S O].
  destruct (delete_for_file_spec bs f db q W P) as (db1 & A & W1 & Fi & Ot & En).
  assert (D : delete_file_doc f db1 = Done (FDb (delete_id f (files db1)) (blocks db1))) by (unfold delete_file_doc; rewrite Fi, L; reflexivity).
  exists db1, (FDb (delete_id f (files db1)) (blocks db1)). split; [exact A|]. split; [exact D|].
  assert (St : fstep bs db (DDelete f) (FDb (delete_id f (files db1)) (blocks db1))) by (econstructor; eassumption).
  pose proof (fstep_inv _ _ _ _ Hb (Build_inv _ _ W S O) St) as [W' _ _].
  split; [|split; [|split]].
  - intros id b I E. assert (Z : In (id, b) (entries f (blocks db1))) by (apply filter_In; split; [exact I|apply N.eqb_eq; exact E]). rewrite En in Z. exact Z.
  - replace (@nil N) with (data_of (entries f (blocks (FDb (delete_id f (files db1)) (blocks db1))))); [apply reads_as_wf, W'|]. cbn [blocks]. rewrite En. reflexivity.
  - intros g d Ng RA. rewrite (reads_as_unique _ _ _ _ W RA). unfold content. rewrite <- (Ot g Ng). change (blocks db1) with (blocks (FDb (delete_id f (files db1)) (blocks db1))). apply reads_as_wf, W'.
  - intros data t Nd. unfold append. destruct data; [congruence|]. destruct bs; [lia|]. cbn [files]. replace (lookup f (delete_id f (files db1))) with (@None file); [reflexivity|]. symmetry. apply lookup_none. rewrite delete_id_fst. tauto.
Qed.
(* so a new file, whatever id it gets, is empty *)
Theorem C57_new_file_empty bs os db id db' : 0 < bs -> fruns bs empty_db os db -> fstep bs db (DCreate id) db' -> reads_as bs db' id [].
Proof.
  intros Hb R St. pose proof (fruns_inv _ _ _ _ Hb (inv_empty bs) R) as I. pose proof (fstep_inv _ _ _ _ Hb I St) as [W' _ _]. destruct I as [W S O].
  inversion St as [| | |? ? fl Nx|]; subst. replace (@nil N) with (data_of (entries id (blocks (FDb (files db ++ [(id, fl)]) (blocks db))))); [apply reads_as_wf, W'|].
  cbn [blocks]. replace (entries id (blocks db)) with (@nil (N * bytes)); [reflexivity|]. symmetry. apply filter_none. intros [i b] I. apply N.eqb_neq. cbn [snd]. intros E.
  apply (O i b I). apply lookup_none. rewrite E. intros X. destruct (next_id_above' _ _ S Nx) as (Ab & _). specialize (Ab _ X). lia.
Qed.
Definition ex_fl : file := File None [97%N].
Definition ex_d0 : fdb := FDb [(1%N, ex_fl)] [].
Definition ex_d1 : fdb := match append 4 [1;2]%N 1 5%Z ex_d0 with Done d => d | _ => empty_db end.
Example C57_example : fruns 4 empty_db [DCreate 1; DAppend 1 [1;2]%N] ex_d1 /\ lookup 1%N (files ex_d1) <> None /\ length (blocks ex_d1) = 1 /\
  exists d, delete_file 1 ex_d1 = Done d /\ d = empty_db.
Proof.
  split; [|split; [discriminate|split; [reflexivity|eexists; split; vm_compute; reflexivity]]].
  apply f_cons with (db1 := ex_d0); [apply (d_create 4 empty_db 1%N ex_fl); reflexivity|]. apply f_cons with (db1 := ex_d1); [apply d_append with (t := 5%Z); vm_compute; reflexivity|constructor].
Qed.
(* an append between the two transactions of delete: the block stays, and a file
   created later gets the id of the deleted one and shows its bytes *)
Theorem C57_interleaved_refuted : exists d1 d2 d3 d4,
  fruns 4 empty_db [DCreate 1; DAppend 1 [1;2]%N] ex_d1 /\
  delete_for_file 1 ex_d1 = Done d1 /\ append 4 [7]%N 1 6%Z d1 = Done d2 /\ delete_file_doc 1 d2 = Done d3 /\
  lookup 1%N (files d3) = None /\ length (by_file 1 d3) = 1 /\
  fstep 4 d3 (DCreate 1) d4 /\ read_to_end 5 3 (fun _ => 5) d4 (opened 4 5 (by_file 1 d4)) = Done (Some [7]%N).
Proof.
  let r := eval vm_compute in (match delete_for_file 1 ex_d1 with Done a => match append 4 [7]%N 1 6%Z a with Done b => match delete_file_doc 1 b with Done c => Some (a, b, c) | _ => None end | _ => None end | _ => None end) in
  match r with Some (?a, ?b, ?c) => exists a, b, c, (FDb (files c ++ [(1%N, ex_fl)]) (blocks c)) end.
  split; [apply C57_example|]. repeat (split; [vm_compute; reflexivity|]). split; [apply d_create; vm_compute; reflexivity|]. vm_compute. reflexivity.
Qed.
Print Assumptions C50_buffered.
Print Assumptions C50_progress.
Print Assumptions C50_large_block_refuted.
Print Assumptions C57_no_orphans.
Print Assumptions C57_delete.
Print Assumptions C57_new_file_empty.
Print Assumptions C57_interleaved_refuted.
