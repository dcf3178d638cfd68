From Verif Require Import Base Databases.
From Coq Require Import ZifyBool.
Local Open Scope N_scope.

(* ---------- specification ---------- *)

(* A name that denotes one entry of a directory. *)
Definition single_component (n : name) : Prop :=
  n <> [] /\ n <> [46] /\ n <> [46; 46] /\ ~ In 47 n /\ ~ In 0 n.

(* The part of [p] below the directory [dir]. *)
Fixpoint strip (dir p : path) : option path :=
  match dir, p with
  | [], _ => Some p
  | d :: dir', c :: p' => if list_eq_dec N.eq_dec d c then strip dir' p' else None
  | _ :: _, [] => None
  end.
Definition files_below (f : list (path * list N)) (dir : path) : list (path * list N) :=
  flat_map (fun e => match strip dir (fst e) with Some q => [(q, snd e)] | None => [] end) f.

(* The specification: a storage is a list of databases, each with a name, a
   schema and its own files. *)
Definition spec := list (name * (schema * list (path * list N))).
Definition sget (n : name) (S : spec) : option (schema * list (path * list N)) :=
  option_map snd (find (fun e => if list_eq_dec N.eq_dec n (fst e) then true else false) S).
Definition sremove (n : name) (S : spec) : spec :=
  filter (fun e => if list_eq_dec N.eq_dec n (fst e) then false else true) S.
Definition put (p : path) (d : list N) (f : list (path * list N)) : list (path * list N) :=
  (p, d) :: filter (fun e => if list_eq_dec (list_eq_dec N.eq_dec) p (fst e) then false else true) f.
Definition swrite (n : name) (p : path) (d : list N) (S : spec) : spec :=
  map (fun e => if list_eq_dec N.eq_dec n (fst e)
                then (fst e, (fst (snd e), put p d (snd (snd e)))) else e) S.

(* (databases, registered schemas) *)
Definition spec_step (X : spec * list schema) (o : op) : (spec * list schema) * outcome unit dberr :=
  let '(T, reg) := X in
  match o with
  | OCreate n sc only =>
      if negb (validate_name n) then (X, Fail EInvalidName)
      else if negb (existsb (N.eqb sc) reg) then (X, Fail ESchemaNotRegistered)
      else match sget n T with
           | None => ((T ++ [(n, (sc, []))], reg), Done tt)
           | Some _ => (X, if only then Done tt else Fail ENameTaken)
           end
  | ODelete n _ =>
      match sget n T with
      | None => (X, Fail ENotFound)
      | Some _ => ((sremove n T, reg), Done tt)
      end
  | OOpen n sc =>
      (X, match sget n T with
          | None => Fail ENotFound
          | Some (sc', _) =>
              if negb (sc' =? sc) then Fail EMismatch
              else if existsb (N.eqb sc) reg then Done tt else Fail ESchemaNotRegistered
          end)
  | OWrite n p d =>
      match sget n T with
      | None => (X, Fail ENotFound)
      | Some _ => ((swrite n p d T, reg), Done tt)
      end
  | ORestart c | OCrashDelete _ _ c => ((T, admin_schema :: c), Done tt)
  end.
Fixpoint spec_run (X : spec * list schema) (l : list op) : (spec * list schema) * list (outcome unit dberr) :=
  match l with
  | [] => (X, [])
  | o :: l' => let '(X1, r) := spec_step X o in let '(X2, rs) := spec_run X1 l' in (X2, r :: rs)
  end.

(* The names a caller may use without stepping on the storage's own files. *)
Definition proper (n : name) : Prop := n <> [] /\ ~ In n reserved_names.
Definition op_ok (o : op) : Prop :=
  match o with
  | OCreate n _ _ => proper n
  | ODelete n _ => validate_name n = true /\ proper n /\ n <> admin_name
  | OOpen _ _ => True
  | OWrite _ p _ => p <> []
  | ORestart c => ~ In admin_schema c
  | OCrashDelete n _ c => validate_name n = true /\ proper n /\ n <> admin_name /\ ~ In admin_schema c
  end.
(* ... and where additionally nothing fails or dies half way *)
Definition calm (o : op) : Prop :=
  match o with
  | ODelete _ (Some _) => False
  | OCrashDelete _ _ _ => False
  | _ => True
  end.
Definition own_files_ok (r : path) (own : list (path * list N)) : Prop :=
  forall p d, In (p, d) own -> exists n q, In n reserved_names /\ p = r ++ n :: q.

(* ---------- names ---------- *)
Lemma name_eqb_spec a b : name_eqb a b = true <-> a = b.
Proof. unfold name_eqb. destruct list_eq_dec; split; congruence. Qed.
Lemma name_eqb_refl a : name_eqb a a = true.
Proof. apply name_eqb_spec. reflexivity. Qed.
Lemma name_eqb_neq a b : a <> b -> name_eqb a b = false.
Proof. intro H. unfold name_eqb. destruct list_eq_dec; congruence. Qed.
Lemma path_eqb_spec a b : path_eqb a b = true <-> a = b.
Proof. unfold path_eqb. destruct list_eq_dec; split; congruence. Qed.

Lemma all_from_chars l b c : all_from b l = true -> In c l -> c <> 47 /\ c <> 0.
Proof.
  revert b. induction l as [|x l IH]; intros b; [intros _ []|].
  cbn [all_from]. rewrite andb_true_iff. intros [H1 H2] [->|H].
  - unfold name_char, alnum in H1. lia.
  - eapply IH; eassumption.
Qed.

Lemma validate_component n : validate_name n = true -> n <> [] -> single_component n.
Proof.
  intros H Hn. split; [exact Hn|]. unfold validate_name in H.
  split; [intros ->; discriminate|]. split; [intros ->; discriminate|].
  split; intro K; destruct (all_from_chars _ _ _ H K); congruence.
Qed.

Lemma split_slash_none n acc : ~ In 47 n -> split_slash acc n = [rev acc ++ n].
Proof.
  revert acc. induction n as [|c n IH]; intros acc H; cbn [split_slash].
  - rewrite app_nil_r. reflexivity.
  - destruct (N.eqb_spec c 47) as [->|E]; [exfalso; apply H; left; reflexivity|].
    rewrite IH by (intro K; apply H; right; exact K). cbn [rev]. rewrite <- app_assoc. reflexivity.
Qed.

Lemma join_component base n : single_component n -> join base n = Some (base ++ [n]).
Proof.
  intros (H1 & H2 & H3 & H4 & H5). unfold join.
  destruct (existsb (N.eqb 0) n) eqn:E.
  - exfalso. apply existsb_exists in E. destruct E as (x & Hx & E). apply N.eqb_eq in E. subst x. tauto.
  - rewrite split_slash_none by exact H4. cbn [rev app fold_left]. unfold step_component.
    rewrite !name_eqb_neq by congruence.
    destruct n as [|c n']; [congruence|]. 
    destruct (N.eqb_spec c 47) as [->|K]; [exfalso; apply H4; left; reflexivity|].
    destruct c as [|p]; [reflexivity|].
    repeat (destruct p as [p|p|]; try reflexivity). congruence.
Qed.

Lemma folder_valid s n : validate_name n = true -> n <> [] -> folder s n = Some (root s ++ [n]).
Proof. intros. apply join_component, validate_component; assumption. Qed.

(* ---------- paths ---------- *)
Lemma under_strip dir p : under dir p = true <-> exists q, strip dir p = Some q.
Proof.
  revert p. induction dir as [|d dir IH]; intros p; cbn [under strip].
  - split; [eauto|reflexivity].
  - destruct p as [|c p]; [split; [discriminate|intros [? ?]; discriminate]|].
    rewrite andb_true_iff, name_eqb_spec, IH. destruct list_eq_dec; [tauto|].
    split; [tauto|intros [? ?]; discriminate].
Qed.
Lemma strip_spec dir p q : strip dir p = Some q <-> p = dir ++ q.
Proof.
  revert p. induction dir as [|d dir IH]; intros p; cbn [strip app].
  - split; congruence.
  - destruct p as [|c p]; [split; discriminate|]. destruct list_eq_dec as [->|E].
    + rewrite IH. split; congruence.
    + split; [discriminate|congruence].
Qed.
Lemma under_spec dir p : under dir p = true <-> exists q, p = dir ++ q.
Proof. rewrite under_strip. split; intros [q H]; exists q; apply strip_spec; exact H. Qed.
Lemma under_sibling r n m q : under (r ++ [n]) (r ++ m :: q) = name_eqb n m.
Proof.
  induction r as [|a r IH]; cbn [app under].
  - destruct (name_eqb n m); reflexivity.
  - rewrite name_eqb_refl. exact IH.
Qed.
Lemma strip_sibling r n m q : strip (r ++ [n]) (r ++ m :: q) = if name_eqb n m then Some q else None.
Proof.
  unfold name_eqb. induction r as [|a r IH]; cbn [app strip].
  - destruct list_eq_dec; reflexivity.
  - destruct (list_eq_dec N.eq_dec a a); [exact IH|congruence].
Qed.

Lemma files_below_app f g d : files_below (f ++ g) d = files_below f d ++ files_below g d.
Proof. apply flat_map_app. Qed.

Lemma files_below_in f d q x : In (q, x) (files_below f d) <-> In (d ++ q, x) f.
Proof.
  unfold files_below. rewrite in_flat_map. split.
  - intros ((p & y) & H & K). cbn [fst snd] in K. destruct (strip d p) eqn:E; [|contradiction].
    destruct K as [K|[]]. injection K as <- <-. apply strip_spec in E. subst. exact H.
  - intro H. exists (d ++ q, x). split; [exact H|]. cbn [fst snd].
    assert (E : strip d (d ++ q) = Some q) by (apply strip_spec; reflexivity).
    rewrite E. left. reflexivity.
Qed.

Lemma files_below_none f d : files_below f d = [] <-> forall q x, ~ In (d ++ q, x) f.
Proof.
  split.
  - intros H q x K. apply files_below_in in K. rewrite H in K. exact K.
  - intro H. destruct (files_below f d) as [|(q & x) l] eqn:E; [reflexivity|].
    exfalso. apply (H q x). apply files_below_in. rewrite E. left. reflexivity.
Qed.

Lemma files_below_filter f (P : path * list N -> bool) d :
  (forall e, In e f -> under d (fst e) = true -> P e = true) ->
  files_below (filter P f) d = files_below f d.
Proof.
  induction f as [|e f IH]; intro H; [reflexivity|]. cbn [filter].
  destruct (P e) eqn:E.
  - cbn [files_below flat_map]. f_equal. apply IH. intros e' He'. apply H. right. exact He'.
  - cbn [files_below flat_map]. change (flat_map _ f) with (files_below f d).
    rewrite IH by (intros e' He'; apply H; right; exact He').
    destruct (strip d (fst e)) eqn:K; [|reflexivity].
    rewrite (H e) in E; [discriminate|left; reflexivity|]. apply under_strip. eauto.
Qed.

Lemma files_below_deleted f d : files_below (delete_directory f d (fun _ => false)) d = [].
Proof.
  apply files_below_none. intros q x H. apply filter_In in H. destruct H as [_ H]. cbn [fst] in H.
  rewrite orb_false_r, negb_true_iff in H. assert (under d (d ++ q) = true) by (apply under_spec; eauto). congruence.
Qed.

Lemma files_below_deleted_other f r n m sv : n <> m ->
  files_below (delete_directory f (r ++ [n]) sv) (r ++ [m]) = files_below f (r ++ [m]).
Proof.
  intro H. apply files_below_filter. intros e _ K. apply under_spec in K. destruct K as [q K].
  rewrite K, <- app_assoc. cbn [app]. rewrite under_sibling, name_eqb_neq by exact H. reflexivity.
Qed.

Lemma files_below_write f r n q d : 
  files_below (write_file f ((r ++ [n]) ++ q) d) (r ++ [n]) = put q d (files_below f (r ++ [n])).
Proof.
  unfold write_file, put. cbn [files_below flat_map fst snd].
  assert (E : strip (r ++ [n]) ((r ++ [n]) ++ q) = Some q) by (apply strip_spec; reflexivity).
  rewrite E. cbn [app]. f_equal. change (flat_map _ ?f) with (files_below f (r ++ [n])).
  induction f as [|e f IH]; [reflexivity|]. cbn [filter files_below flat_map].
  change (flat_map _ f) with (files_below f (r ++ [n])).
  destruct (strip (r ++ [n]) (fst e)) as [q'|] eqn:K.
  - rewrite filter_app. cbn [filter fst]. pose proof K as K'. apply strip_spec in K'.
    destruct (list_eq_dec (list_eq_dec N.eq_dec) q q') as [<-|D].
    + replace (path_eqb _ (fst e)) with true by (symmetry; apply path_eqb_spec; congruence).
      cbn [negb app]. exact IH.
    + destruct (path_eqb ((r ++ [n]) ++ q) (fst e)) eqn:F.
      * apply path_eqb_spec in F. rewrite K' in F. apply app_inv_head in F. congruence.
      * cbn [negb]. cbn [files_below flat_map]. rewrite K. cbn [app]. f_equal. exact IH.
  - destruct (path_eqb ((r ++ [n]) ++ q) (fst e)) eqn:F.
    + exfalso. apply path_eqb_spec in F. rewrite <- F, E in K. discriminate.
    + cbn [negb files_below flat_map]. rewrite K. exact IH.
Qed.

Lemma files_below_write_other f r n m q d : n <> m -> 
  files_below (write_file f ((r ++ [n]) ++ q) d) (r ++ [m]) = files_below f (r ++ [m]).
Proof.
  intro H. unfold write_file. cbn [files_below flat_map fst snd].
  rewrite <- app_assoc. cbn [app]. rewrite strip_sibling, name_eqb_neq by congruence.
  change (flat_map _ ?f) with (files_below f (r ++ [m])). cbn [app]. apply files_below_filter.
  intros e _ K. apply negb_true_iff. destruct (path_eqb _ (fst e)) eqn:F; [|reflexivity].
  apply path_eqb_spec in F. rewrite <- F, under_sibling, name_eqb_neq in K by congruence. discriminate.
Qed.

(* ---------- the invariant ---------- *)
Record Inv (s : st) : Prop := {
  i_ids : NoDup (map fst (records s));
  i_names : NoDup (map fst (map snd (records s)));
  i_avail : forall n sc, In (n, sc) (avail s) -> In (n, sc) (map snd (records s));
  i_anames : NoDup (map fst (avail s));
  i_valid : forall n sc, In (n, sc) (map snd (records s)) -> validate_name n = true /\ proper n;
  i_files : forall p d, In (p, d) (fs s) -> exists n q, p = root s ++ n :: q /\
      (In n reserved_names \/ (q <> [] /\ In n (map fst (map snd (records s)))))
}.

Lemma mem_spec n l : mem n l = true <-> In n (map fst l).
Proof.
  unfold mem. rewrite existsb_exists, in_map_iff. split.
  - intros (e & H & E). apply name_eqb_spec in E. exists e. split; [congruence|exact H].
  - intros (e & E & H). exists e. split; [exact H|]. apply name_eqb_spec. congruence.
Qed.
Lemma mem_false n l : mem n l = false <-> ~ In n (map fst l).
Proof. rewrite <- mem_spec. destruct (mem n l); split; congruence. Qed.
Lemma without_in n l m sc : In (m, sc) (without n l) <-> In (m, sc) l /\ m <> n.
Proof.
  unfold without. rewrite filter_In. cbn [fst]. rewrite negb_true_iff.
  split; intros [H K]; (split; [exact H|]).
  - intros ->. rewrite name_eqb_refl in K. discriminate.
  - apply name_eqb_neq. congruence.
Qed.
Lemma NoDup_filter_fst {A B} (l : list (A * B)) P : NoDup (map fst l) -> NoDup (map fst (filter P l)).
Proof.
  induction l as [|x l IH]; intro H; [constructor|]. cbn [map filter] in *. inversion H as [|? ? H1 H2]; subst.
  destruct (P x); [|apply IH; exact H2]. cbn [map]. constructor; [|apply IH; exact H2].
  intro K. apply H1. apply in_map_iff in K. destruct K as (y & E & K). apply filter_In in K.
  rewrite <- E. apply in_map, K.
Qed.
Lemma NoDup_filter_map {A B C} (f : A -> B) (g : B -> C) (l : list A) P : NoDup (map g (map f l)) -> NoDup (map g (map f (filter P l))).
Proof.
  induction l as [|x l IH]; intro H; [constructor|]. cbn [map filter] in *. inversion H as [|? ? H1 H2]; subst.
  destruct (P x); [|apply IH; exact H2]. cbn [map]. constructor; [|apply IH; exact H2].
  intro K. apply H1. rewrite map_map in *. apply in_map_iff in K. destruct K as (y & E & K). apply filter_In in K.
  rewrite <- E. apply (in_map (fun x => g (f x))), K.
Qed.
Lemma NoDup_snoc {A} (l : list A) x : NoDup l -> ~ In x l -> NoDup (l ++ [x]).
Proof.
  induction l as [|y l IH]; intros H K; cbn [app].
  - constructor; [intros []|constructor].
  - inversion H as [|? ? H1 H2]; subst. constructor.
    + rewrite in_app_iff. intros [L|[L|[]]]; [contradiction|]. subst. apply K. left. reflexivity.
    + apply IH; [exact H2|]. intro L. apply K. right. exact L.
Qed.
Lemma fresh_id_new l : ~ In (fresh_id l) (map fst l).
Proof.
  assert (H : forall r, In r l -> fst r < fresh_id l).
  { induction l as [|x l IH]; intros r []; unfold fresh_id; cbn [fold_right]; fold (fresh_id l).
    - subst. lia.
    - specialize (IH _ H). lia. }
  intro K. apply in_map_iff in K. destruct K as (r & E & K). specialize (H _ K). lia.
Qed.

Lemma create_inv s n sc only : Inv s -> proper n -> Inv (fst (create_database s n sc only)).
Proof.
  intros I P. unfold create_database.
  destruct (validate_name n) eqn:V; [|exact I]. cbn [negb].
  destruct (existsb (N.eqb sc) (schemas s)); [|exact I]. cbn [negb].
  destruct (mem n (avail s)) eqn:M; cbn [negb].
  { destruct only; exact I. }
  unfold push_record. destruct (mem n (map snd (records s))) eqn:R; [exact I|].
  apply mem_false in R. cbn [fst]. destruct I as [I1 I2 I3 I4 I5 I6].
  constructor; cbn [records avail fs root].
  - rewrite map_app. apply NoDup_snoc; [exact I1|]. apply fresh_id_new.
  - rewrite !map_app. apply NoDup_snoc; [exact I2|exact R].
  - intros m sc' H. rewrite map_app, in_app_iff in *. destruct H as [H|H]; [left; apply I3, H|right; exact H].
  - rewrite map_app. apply NoDup_snoc; [exact I4|]. apply mem_false. exact M.
  - intros m sc' H. rewrite map_app, in_app_iff in H. destruct H as [H|[H|[]]]; [eapply I5, H|].
    cbn [snd] in H. injection H as <- <-. split; assumption.
  - intros p d H. destruct (I6 _ _ H) as (m & q & E & K). exists m, q. split; [exact E|].
    destruct K as [K|[K1 K2]]; [left; exact K|right; split; [exact K1|]].
    rewrite !map_app, in_app_iff. left. exact K2.
Qed.

Lemma folder_not_file s n : Inv s -> validate_name n = true -> proper n -> is_file (fs s) (root s ++ [n]) = false.
Proof.
  intros I V [P1 P2]. destruct (is_file _ _) eqn:E; [|reflexivity]. exfalso.
  unfold is_file in E. apply existsb_exists in E. destruct E as ((p & d) & H & E).
  apply path_eqb_spec in E. cbn [fst] in E. subst p.
  destruct (i_files s I _ _ H) as (m & q & E & K). apply app_inv_head in E. injection E as <- <-.
  destruct K as [K|[K _]]; [exact (P2 K)|congruence].
Qed.

Lemma delete_directory_in f d sv p x : In (p, x) (delete_directory f d sv) -> In (p, x) f.
Proof. intro H. apply filter_In in H. tauto. Qed.

(* What delete_database does, case by case, for a proper name. *)
Definition remove_record (n : name) (l : list (N * (name * schema))) :=
  filter (fun r => negb (name_eqb n (fst (snd r)))) l.

Lemma find_record l n :
  match find (fun r : N * (name * schema) => name_eqb n (fst (snd r))) l with
  | Some r => In r l /\ fst (snd r) = n
  | None => ~ In n (map fst (map snd l))
  end.
Proof.
  destruct (find _ l) as [r|] eqn:E.
  - apply find_some in E. destruct E as [H E]. apply name_eqb_spec in E. split; congruence.
  - intro K. rewrite map_map in K. apply in_map_iff in K. destruct K as (r & E1 & K).
    apply (find_none _ _ E) in K. rewrite E1, name_eqb_refl in K. discriminate.
Qed.

Lemma filter_id_name l r : NoDup (map fst l) -> NoDup (map fst (map snd l)) -> In r l ->
  filter (fun r' : N * (name * schema) => negb (fst r' =? fst r)) l = remove_record (fst (snd r)) l.
Proof.
  intros H1 H2 H. apply filter_ext_in. intros r' H'. f_equal.
  assert (E : fst r' = fst r <-> fst (snd r') = fst (snd r)).
  { split; intro E.
    - revert r r' H H' E. induction l as [|x l IH]; intros r r' [] [] E; cbn [map] in *;
        inversion H1 as [|? ? A1 A2]; inversion H2 as [|? ? B1 B2]; subst.
      + congruence.
      + exfalso. apply A1. rewrite <- E. apply in_map. assumption.
      + exfalso. apply A1. rewrite E. apply in_map. assumption.
      + apply IH; assumption.
    - revert r r' H H' E. induction l as [|x l IH]; intros r r' [] [] E; cbn [map] in *;
        inversion H1 as [|? ? A1 A2]; inversion H2 as [|? ? B1 B2]; subst.
      + congruence.
      + exfalso. apply B1. rewrite <- E. rewrite map_map. apply (in_map (fun x => fst (snd x))). assumption.
      + exfalso. apply B1. rewrite E. rewrite map_map. apply (in_map (fun x => fst (snd x))). assumption.
      + apply IH; assumption. }
  destruct (N.eqb_spec (fst r') (fst r)) as [D|D].
  - symmetry. apply name_eqb_spec. symmetry. apply E. exact D.
  - symmetry. apply name_eqb_neq. intro K. apply D, E. congruence.
Qed.

Lemma remove_record_in n l m sc : In (m, sc) (map snd (remove_record n l)) <-> In (m, sc) (map snd l) /\ m <> n.
Proof.
  unfold remove_record. rewrite !in_map_iff. split.
  - intros (r & E & H). apply filter_In in H. destruct H as [H K]. split; [exists r; split; assumption|].
    rewrite E in K. cbn [fst] in K. intros ->. rewrite name_eqb_refl in K. discriminate.
  - intros [(r & E & H) K]. exists r. split; [exact E|]. apply filter_In. split; [exact H|].
    rewrite E. cbn [fst]. rewrite name_eqb_neq by congruence. reflexivity.
Qed.
Lemma remove_record_absent n l : ~ In n (map fst (map snd l)) -> remove_record n l = l.
Proof.
  unfold remove_record. induction l as [|r l IH]; intro H; [reflexivity|]. cbn [map filter] in *.
  rewrite name_eqb_neq by (intro K; apply H; left; congruence). cbn [negb]. f_equal. apply IH.
  intro K. apply H. right. exact K.
Qed.

Lemma delete_directory_absent f d sv : exists_path f d = false -> delete_directory f d sv = f.
Proof.
  unfold exists_path, delete_directory. induction f as [|e f IH]; intro E; [reflexivity|].
  cbn [existsb filter] in *. apply orb_false_iff in E. destruct E as [E1 E2]. rewrite E1. cbn [negb orb].
  f_equal. apply IH, E2.
Qed.

Lemma delete_cases s n io : Inv s -> validate_name n = true -> proper n ->
  let removed := mk (root s) (delete_directory (fs s) (root s ++ [n]) (fun _ => false))
                   (remove_record n (records s)) (without n (avail s)) (schemas s) in
  (io = None \/ exists_path (fs s) (root s ++ [n]) = false ->
   delete_database s n io =
     (removed, if mem n (map snd (records s)) then Done tt else Fail ENotFound)) /\
  (exists_path (fs s) (root s ++ [n]) = true -> forall sv, io = Some sv ->
   delete_database s n io =
     (mk (root s) (delete_directory (fs s) (root s ++ [n]) sv) (records s) (without n (avail s)) (schemas s), Fail EIo)).
Proof.
  intros I V P removed. unfold delete_database. rewrite folder_valid by (exact V || apply P).
  rewrite (folder_not_file s n I V P).
  assert (F : forall f, f = delete_directory (fs s) (root s ++ [n]) (fun _ => false) ->
    match find (fun r => name_eqb n (fst (snd r))) (records s) with
    | Some r =>
        (mk (root s) f (filter (fun r' => negb (fst r' =? fst r)) (records s)) (without n (avail s)) (schemas s), Done tt)
    | None => (mk (root s) f (records s) (without n (avail s)) (schemas s), Fail ENotFound)
    end = (removed, if mem n (map snd (records s)) then Done tt else Fail ENotFound)).
  { intros f ->. pose proof (find_record (records s) n) as H. destruct (find _ (records s)) as [r|].
    - destruct H as [H1 H2]. rewrite (filter_id_name _ _ (i_ids s I) (i_names s I) H1), H2.
      replace (mem n (map snd (records s))) with true; [reflexivity|]. symmetry. apply mem_spec.
      rewrite map_map. apply in_map_iff. exists r. split; assumption.
    - replace (mem n (map snd (records s))) with false by (symmetry; apply mem_false; exact H).
      unfold removed. rewrite remove_record_absent by exact H. reflexivity. }
  split.
  - intros [-> | E].
    + destruct (exists_path _ _) eqn:E; [apply F; reflexivity|].
      apply F. symmetry. apply delete_directory_absent, E.
    + rewrite E. apply F. symmetry. apply delete_directory_absent, E.
  - intros -> sv ->. reflexivity.
Qed.

Lemma delete_inv s n io : Inv s -> validate_name n = true -> proper n -> Inv (fst (delete_database s n io)).
Proof.
  intros I V P. destruct (delete_cases s n io I V P) as [D1 D2].
  destruct I as [I1 I2 I3 I4 I5 I6].
  assert (C : (io = None \/ exists_path (fs s) (root s ++ [n]) = false) \/
              (exists_path (fs s) (root s ++ [n]) = true /\ exists sv, io = Some sv)).
  { destruct io; [|tauto]. destruct (exists_path _ _); eauto. }
  destruct C as [C | [C [sv ->]]]; [rewrite (D1 C) | rewrite (D2 C sv eq_refl)]; cbn [fst];
    constructor; cbn [records avail fs root].
  - apply NoDup_filter_fst, I1.
  - apply NoDup_filter_map, I2.
  - intros m sc H. apply without_in in H. apply remove_record_in. split; [apply I3|]; tauto.
  - apply NoDup_filter_fst, I4.
  - intros m sc H. apply remove_record_in in H. eapply I5, H.
  - intros p d H. apply filter_In in H. destruct H as [H K]. cbn [fst] in K. rewrite orb_false_r, negb_true_iff in K.
    destruct (I6 _ _ H) as (m & q & -> & L). exists m, q. split; [reflexivity|].
    rewrite under_sibling in K. destruct L as [L|[L1 L2]]; [left; exact L|right; split; [exact L1|]].
    apply in_map_iff in L2. destruct L2 as ((m' & sc) & E & L2). cbn [fst] in E. subst m'.
    apply in_map_iff. exists (m, sc). split; [reflexivity|]. apply remove_record_in. split; [exact L2|].
    intros ->. rewrite name_eqb_refl in K. discriminate.
  - exact I1.
  - exact I2.
  - intros m sc H. apply without_in in H. apply I3. tauto.
  - apply NoDup_filter_fst, I4.
  - exact I5.
  - intros p d H. apply delete_directory_in in H. apply (I6 _ _ H).
Qed.

Lemma write_inv s n p d : Inv s -> p <> [] -> Inv (fst (write_in_database s n p d)).
Proof.
  intros I Hp. unfold write_in_database. destruct (mem n (avail s)) eqn:M; [|exact I].
  apply mem_spec in M. apply in_map_iff in M. destruct M as ((n' & sc) & E & M). cbn [fst] in E. subst n'.
  apply (i_avail s I) in M. destruct (i_valid s I _ _ M) as [V [P1 P2]].
  rewrite folder_valid by assumption. cbn [fst]. destruct I as [I1 I2 I3 I4 I5 I6].
  constructor; cbn [records avail fs root]; try assumption.
  intros p' d' [H|H].
  - injection H as <- <-. exists n, p. rewrite <- app_assoc. split; [reflexivity|]. right. split; [exact Hp|].
    apply in_map_iff. exists (n, sc). split; [reflexivity|exact M].
  - apply filter_In in H. apply (I6 _ _ (proj1 H)).
Qed.

Definition has_admin (s : st) : Prop := In (admin_name, admin_schema) (map snd (records s)).

Lemma lookup_spec n l : NoDup (map fst l) -> forall sc, lookup n l = Some sc <-> In (n, sc) l.
Proof.
  unfold lookup. induction l as [|(m & sc') l IH]; intros H sc; cbn [find].
  - split; [discriminate|intros []].
  - cbn [map fst] in H. inversion H as [|? ? H1 H2]; subst. cbn [fst].
    destruct (name_eqb n m) eqn:E.
    + apply name_eqb_spec in E. subst m. cbn [option_map snd]. split.
      * intro K. left. congruence.
      * intros [K|K]; [congruence|]. exfalso. apply H1. apply in_map_iff. exists (n, sc). split; [reflexivity|exact K].
    + rewrite IH by exact H2. split; [right; assumption|]. intros [K|K]; [|exact K].
      exfalso. injection K as -> _. rewrite name_eqb_refl in E. discriminate.
Qed.
Lemma lookup_none n l : lookup n l = None <-> ~ In n (map fst l).
Proof.
  rewrite <- mem_spec. unfold lookup, mem. destruct (find _ l) as [e|] eqn:E; cbn [option_map].
  - split; [discriminate|]. apply find_some in E. intro H. exfalso. apply H. apply existsb_exists. eauto.
  - split; [|reflexivity]. intros _ H. apply existsb_exists in H. destruct H as (e & H & K).
    rewrite (find_none _ _ E e H) in K. discriminate.
Qed.

Lemma restart_done s c : Inv s -> has_admin s -> ~ In admin_schema c ->
  restart s c = (mk (root s) (fs s) (records s) (map snd (records s)) (admin_schema :: c), Done tt).
Proof.
  intros I A C. unfold restart, open_storage, create_admin_if_needed, cache_available, register_schema.
  cbn [root fs records schemas avail].
  replace (existsb (N.eqb admin_schema) c) with false.
  2: { symmetry. destruct (existsb (N.eqb admin_schema) c) eqn:E; [|reflexivity]. apply existsb_exists in E.
       destruct E as (x & Hx & E). apply N.eqb_eq in E. subst x. contradiction. }
  unfold open_database. cbn [avail schemas].
  rewrite (proj2 (lookup_spec admin_name (map snd (records s)) (i_names s I) admin_schema) A).
  reflexivity.
Qed.

Lemma restart_inv s : Inv s -> forall sch, Inv (mk (root s) (fs s) (records s) (map snd (records s)) sch).
Proof. intros [I1 I2 I3 I4 I5 I6] sch. constructor; cbn [records avail fs root]; auto. Qed.

(* ---------- histories with failures and crashes ---------- *)
Lemma create_root s n sc b : root (fst (create_database s n sc b)) = root s.
Proof.
  unfold create_database, push_record. destruct (validate_name n); [|reflexivity]. cbn [negb].
  destruct (existsb (N.eqb sc) (schemas s)); [|reflexivity]. cbn [negb]. destruct (mem n (avail s)); cbn [negb]; [destruct b; reflexivity|].
  destruct (mem n _); reflexivity.
Qed.
Lemma delete_root s n io : root (fst (delete_database s n io)) = root s.
Proof.
  unfold delete_database. destruct (folder s n); repeat (destruct (exists_path _ _) || destruct (is_file _ _) || destruct io || destruct (find _ _)); reflexivity.
Qed.
Lemma create_has s n sc b m sc' : In (m, sc') (map snd (records s)) -> In (m, sc') (map snd (records (fst (create_database s n sc b)))).
Proof.
  intro H. unfold create_database, push_record. destruct (validate_name n); [|exact H]. cbn [negb].
  destruct (existsb (N.eqb sc) (schemas s)); [|exact H]. cbn [negb]. destruct (mem n (avail s)); cbn [negb]; [destruct b; exact H|].
  destruct (mem n _); [exact H|]. cbn [fst records]. rewrite map_app, in_app_iff. left. exact H.
Qed.
Lemma delete_has s n io m sc : Inv s -> validate_name n = true -> proper n -> m <> n ->
  In (m, sc) (map snd (records s)) -> In (m, sc) (map snd (records (fst (delete_database s n io)))).
Proof.
  intros I V P D H. destruct (delete_cases s n io I V P) as [D1 D2].
  assert (C : (io = None \/ exists_path (fs s) (root s ++ [n]) = false) \/
              (exists_path (fs s) (root s ++ [n]) = true /\ exists sv, io = Some sv)).
  { destruct io; [|tauto]. destruct (exists_path _ _); eauto. }
  destruct C as [C | [C [sv ->]]]; [rewrite (D1 C) | rewrite (D2 C sv eq_refl)]; cbn [fst records].
  - apply remove_record_in. split; assumption.
  - exact H.
Qed.
Lemma delete_files_other s n io m : Inv s -> validate_name n = true -> proper n -> m <> n ->
  files_below (fs (fst (delete_database s n io))) (root s ++ [m]) = files_below (fs s) (root s ++ [m]).
Proof.
  intros I V P D. destruct (delete_cases s n io I V P) as [D1 D2].
  assert (C : (io = None \/ exists_path (fs s) (root s ++ [n]) = false) \/
              (exists_path (fs s) (root s ++ [n]) = true /\ exists sv, io = Some sv)).
  { destruct io; [|tauto]. destruct (exists_path _ _); eauto. }
  destruct C as [C | [C [sv ->]]]; [rewrite (D1 C) | rewrite (D2 C sv eq_refl)]; cbn [fst fs];
    apply files_below_deleted_other; congruence.
Qed.

Lemma step_inv s o : Inv s -> has_admin s -> op_ok o -> Inv (fst (step s o)) /\ has_admin (fst (step s o)) /\ root (fst (step s o)) = root s.
Proof.
  intros I A O. destruct o as [n sc b|n io|n sc|n p d|c|n sv c]; cbn [step op_ok] in *.
  - split; [apply create_inv; assumption|]. split; [apply create_has, A|apply create_root].
  - destruct O as (V & P & D). split; [apply delete_inv; assumption|]. split; [|apply delete_root].
    apply delete_has; auto.
  - split; [exact I|]. split; [exact A|reflexivity].
  - split; [apply write_inv; assumption|]. unfold write_in_database, has_admin.
    destruct (mem _ _); [|split; [exact A|reflexivity]]. destruct (folder _ _); split; (exact A || reflexivity).
  - rewrite (restart_done s c I A O). cbn [fst]. split; [apply restart_inv, I|]. split; [exact A|reflexivity].
  - destruct O as (V & P & D & C).
    pose proof (delete_inv s n (Some sv) I V P) as I'.
    assert (A' : has_admin (fst (delete_database s n (Some sv)))) by (apply delete_has; auto).
    rewrite (restart_done _ c I' A' C). cbn [fst]. split; [apply restart_inv, I'|]. split; [exact A'|].
    cbn [root]. apply delete_root.
Qed.

Lemma run_inv l : forall s, Inv s -> has_admin s -> Forall op_ok l ->
  Inv (fst (run s l)) /\ has_admin (fst (run s l)) /\ root (fst (run s l)) = root s.
Proof.
  induction l as [|o l IH]; intros s I A F; [cbn [run fst]; auto|]. cbn [run].
  inversion F as [|? ? F1 F2]; subst.
  destruct (step s o) as [s1 r] eqn:E. destruct (step_inv s o I A F1) as (I1 & A1 & R1). rewrite E in I1, A1, R1. cbn [fst] in *.
  destruct (run s1 l) as [s2 rs] eqn:E2. specialize (IH s1 I1 A1 F2). rewrite E2 in IH. cbn [fst] in *.
  destruct IH as (I2 & A2 & R2). split; [exact I2|]. split; [exact A2|congruence].
Qed.

(* a fresh storage *)
Lemma open_new r own c : own_files_ok r own -> ~ In admin_schema c ->
  open_storage (new_storage r own) c =
    Done (mk r own [(0, (admin_name, admin_schema))] [(admin_name, admin_schema)] (admin_schema :: c)).
Proof.
  intros O C. unfold open_storage, create_admin_if_needed, cache_available, register_schema, new_storage.
  cbn [root fs records schemas avail map].
  replace (existsb (N.eqb admin_schema) c) with false; [reflexivity|].
  symmetry. destruct (existsb (N.eqb admin_schema) c) eqn:E; [|reflexivity]. apply existsb_exists in E.
  destruct E as (x & Hx & E). apply N.eqb_eq in E. subst x. contradiction.
Qed.
Lemma admin_proper : proper admin_name.
Proof. split; [discriminate|]. cbn. intuition discriminate. Qed.
Lemma new_inv r own sch : own_files_ok r own ->
  let s := mk r own [(0, (admin_name, admin_schema))] [(admin_name, admin_schema)] sch in Inv s /\ has_admin s.
Proof.
  intros O s. split; [|left; reflexivity].
  constructor; subst s; cbn [records avail fs root map fst snd].
  - repeat constructor; intros [].
  - repeat constructor; intros [].
  - tauto.
  - repeat constructor; intros [].
  - intros n sc [H|[]]. injection H as <- <-. split; [reflexivity|apply admin_proper].
  - intros p d H. destruct (O _ _ H) as (n & q & K & E). exists n, q. split; [exact E|left; exact K].
Qed.
