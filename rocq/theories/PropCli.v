(* C105. The command-line tools (Cli.v). *)
From Verif Require Import Base Utf8 Names NamesProofs Cli.
From Coq Require Import Lia ZifyBool.
Local Open Scope N_scope.

(* ---------- typing a password ---------- *)
Definition printable (c : N) : Prop := 32 <= c <= 126.
(* a byte that neither ends nor cancels the input *)
Definition goes_on (c : N) : Prop := ~ In c [27; 3; 10; 13; 4].
Lemma read_from typed a b : Forall goes_on a -> exists t, (forall b, read_line typed (a ++ b) = read_line t b) /\ read_line typed (a ++ b) = read_line t b.
Proof.
  intros F. enough (exists t, forall b, read_line typed (a ++ b) = read_line t b) as (t & T) by (exists t; split; [exact T|apply T]).
  revert typed. induction a as [|c a IH]; intros typed; [exists typed; reflexivity|]. inversion F as [|? ? G F']; subst. cbn [app read_line].
  assert (N27 : c =? 27 = false) by (apply N.eqb_neq; intros ->; apply G; cbn; auto). assert (N3 : c =? 3 = false) by (apply N.eqb_neq; intros ->; apply G; cbn; auto).
  assert (N10 : c =? 10 = false) by (apply N.eqb_neq; intros ->; apply G; cbn; auto). assert (N13 : c =? 13 = false) by (apply N.eqb_neq; intros ->; apply G; cbn; tauto).
  assert (N4 : c =? 4 = false) by (apply N.eqb_neq; intros ->; apply G; cbn; tauto). rewrite N27, N3, N10, N13, N4. cbn [orb].
  destruct (c =? 127); [apply IH, F'|]. destruct (c =? 21); [apply IH, F'|]. destruct (is_control c); apply IH, F'.
Qed.
Lemma read_push typed c b : (32 <= c /\ c <> 127) -> read_line typed (c :: b) = read_line (typed ++ [c]) b.
Proof.
  intros P. cbn [read_line]. unfold is_control.
  replace ((c =? 27) || (c =? 3)) with false by lia. replace (c =? 127) with false by lia. replace (c =? 21) with false by lia.
  replace ((c =? 10) || (c =? 13) || (c =? 4)) with false by lia. replace ((c <? 32) || false) with false by lia. reflexivity.
Qed.
Lemma read_pushes p : forall typed b, Forall (fun c => 32 <= c /\ c <> 127) p -> read_line typed (p ++ b) = read_line (typed ++ p) b.
Proof.
  induction p as [|c p IH]; intros typed b F; [rewrite app_nil_r; reflexivity|]. inversion F as [|? ? P F']; subst. cbn [app]. rewrite read_push by exact P. rewrite IH by exact F'. rewrite <- app_assoc. reflexivity.
Qed.
(* what is typed and ended with Enter (or ^D, or the end of the input) is the password *)
Theorem C105_typed : forall p e rest, Forall printable p -> In e [10; 13; 4] -> read_line [] (p ++ e :: rest) = (Some p, rest) /\ read_line [] p = (Some p, []).
Proof.
  intros p e rest F E. assert (F' : Forall (fun c => 32 <= c /\ c <> 127) p) by (eapply Forall_impl; [|exact F]; intros c C; unfold printable in C; lia).
  split; [|rewrite <- (app_nil_r p) at 1; rewrite read_pushes by exact F'; reflexivity]. rewrite read_pushes by exact F'. destruct E as [<-|[<-|[<-|[]]]]; reflexivity.
Qed.
(* Backspace takes back the character before it, ^U the whole line; other control characters do nothing *)
Theorem C105_backspace : forall a c b, Forall goes_on a -> printable c -> read_line [] (a ++ c :: 127 :: b) = read_line [] (a ++ b).
Proof.
  intros a c b F P. destruct (read_from [] a b F) as (t & T & _). rewrite !T. rewrite read_push by (unfold printable in P; lia). cbn [read_line N.eqb Pos.eqb orb]. rewrite removelast_last. reflexivity.
Qed.
Theorem C105_backspace_empty : forall b, read_line [] (127 :: b) = read_line [] b.
Proof. reflexivity. Qed.
Theorem C105_clear : forall a b, Forall goes_on a -> read_line [] (a ++ 21 :: b) = read_line [] b.
Proof. intros a b F. destruct (read_from [] a b F) as (t & T & _). rewrite T. reflexivity. Qed.
Theorem C105_ignored : forall a c b, Forall goes_on a -> goes_on c -> c < 32 -> c <> 21 -> read_line [] (a ++ c :: b) = read_line [] (a ++ b).
Proof.
  intros a c b F G L N0. destruct (read_from [] a b F) as (t & T & _). rewrite !T. cbn [read_line]. unfold is_control, goes_on in *. cbn [In] in G.
  replace ((c =? 27) || (c =? 3)) with false by lia. replace (c =? 127) with false by lia. replace (c =? 21) with false by lia.
  replace ((c =? 10) || (c =? 13) || (c =? 4)) with false by lia. replace ((c <? 32) || false) with true by lia. reflexivity.
Qed.
Theorem C105_cancel : forall a c b, Forall goes_on a -> In c [27; 3] -> read_line [] (a ++ c :: b) = (None, b).
Proof. intros a c b F C. destruct (read_from [] a b F) as (t & T & _). rewrite T. destruct C as [<-|[<-|[]]]; reflexivity. Qed.
(* asking twice gives a password exactly if it was typed twice the same *)
Lemma str_eqb_spec a b : str_eqb a b = true <-> a = b.
Proof.
  revert b. induction a as [|x a IH]; intros [|y b]; cbn [str_eqb]; try (split; [discriminate|discriminate]); [split; reflexivity|].
  rewrite Bool.andb_true_iff, N.eqb_eq, IH. split; [intros (-> & ->); reflexivity|intros [= -> ->]; auto].
Qed.
Theorem C105_confirmed : forall i p r, read_password true i = (Typed p, r) <-> exists r1, read_line [] i = (Some p, r1) /\ read_line [] r1 = (Some p, r).
Proof.
  intros i p r. unfold read_password. destruct (read_line [] i) as [[q|] r1] eqn:A; [|split; [discriminate|intros (? & ? & _); discriminate]].
  destruct (read_line [] r1) as [[q'|] r2] eqn:B; [|split; [discriminate|intros (r3 & E & X); injection E as -> ->; rewrite B in X; discriminate]].
  destruct (str_eqb q q') eqn:Q.
  - apply str_eqb_spec in Q as <-. split; [intros [= -> ->]; exists r1; auto|]. intros (r3 & E & X). injection E as -> ->. rewrite B in X. injection X as <-. reflexivity.
  - split; [discriminate|]. intros (r3 & E & X). injection E as -> ->. rewrite B in X. injection X as -> ->. exfalso. rewrite (proj2 (str_eqb_spec p p) eq_refl) in Q. discriminate.
Qed.
(* FINDING: a password with a character beyond ASCII is not the one that was typed: each byte
   of the terminal's UTF-8 becomes a character, so the user cannot log in with it elsewhere *)
Theorem C105_not_ascii_refuted : forall s rest, str_ok s -> Forall (fun c => 32 <= c /\ c <> 127) s -> Exists (fun c => 128 <= c) s ->
  exists p, read_line [] (utf8 s ++ 13 :: rest) = (Some p, rest) /\ p <> s /\ utf8 p <> utf8 s.
Proof.
  intros s rest O F X. exists (utf8 s).
  assert (CH : forall c, 32 <= c /\ c <> 127 -> Forall (fun c => 32 <= c /\ c <> 127) (utf8_char c)).
  { intros c P. unfold utf8_char. destruct (c <? 0x80) eqn:L1; [repeat constructor; lia|]. assert (M : forall n, 32 <= 0x80 + n /\ 0x80 + n <> 127) by (intros; lia).
    destruct (c <? 0x800); [repeat constructor; try apply M; lia|]. destruct (c <? 0x10000); repeat constructor; try apply M; lia. }
  assert (NE : utf8 s <> s).
  { assert (GE : forall t, (length t <= length (utf8 t))%nat).
    { induction t as [|c t IH]; [apply le_n|]. cbn [utf8 flat_map]. rewrite app_length. fold (utf8 t). pose proof (utf8_char_nonempty c). destruct (utf8_char c); [congruence|]. cbn [length]. lia. }
    enough (LT : (length s < length (utf8 s))%nat) by (intros E; rewrite E in LT; lia). clear O F CH. induction X as [c t H|c t H IH]; cbn [utf8 flat_map]; rewrite app_length; fold (utf8 t); cbn [length].
    - pose proof (GE t). assert (2 <= length (utf8_char c))%nat; [|lia]. unfold utf8_char. destruct (N.ltb_spec c 0x80); [lia|]. destruct (c <? 0x800); [cbn; lia|]. destruct (c <? 0x10000); cbn; lia.
    - pose proof (utf8_char_nonempty c). destruct (utf8_char c); [congruence|]. cbn [length]. lia. }
  split.
  - rewrite read_pushes; [reflexivity|]. apply Forall_forall. intros b B. unfold utf8 in B. apply in_flat_map in B as (c & C & B). rewrite Forall_forall in F. specialize (CH c (F c C)). rewrite Forall_forall in CH. apply CH, B.
  - split; [exact NE|]. intros E. apply NE. apply utf8_inj; [|exact O|exact E]. apply Forall_forall. intros b B. unfold utf8 in B. apply in_flat_map in B as (c & C & B).
    unfold str_ok in O. rewrite Forall_forall in O. pose proof (utf8_char_bytes c (O c C)) as BO. unfold bytes_ok in BO. rewrite Forall_forall in BO. specialize (BO b B). apply char_ok_iff. unfold byte_ok in BO. lia.
Qed.
(* FINDING: where a line ends with CR LF, the CR ends the first input and the LF the second *)
Theorem C105_crlf_refuted : forall p rest, Forall printable p -> p <> [] -> read_password true (p ++ 13 :: 10 :: rest) = (Mismatch, rest).
Proof.
  intros p rest F N0. unfold read_password. rewrite (proj1 (C105_typed p 13 (10 :: rest) F (or_intror (or_introl eq_refl)))). cbn [read_line N.eqb Pos.eqb orb]. destruct p; [congruence|]. reflexivity.
Qed.

(* ---------- the user commands ---------- *)
(* nothing is asked of the storage unless the password was typed twice; then it is set for
   the user just created, under the id the storage answered with *)
Theorem C105_create : forall St E (perform : call -> St -> St * (N + E)) user (password : bool) input s,
  let pw := fst (read_password true input) in
  let r := execute perform (Create user password) input s in
  match password, pw with
  | true, Typed p =>
      match perform (CCreateUser user) s with
      | (s1, inr e) => r = (s1, Failed e)
      | (s1, inl id) => match perform (CSetUserPassword (Id id) p) s1 with (s2, inl _) => r = (s2, Fine) | (s2, inr e) => r = (s2, Failed e) end
      end
  | true, t => r = (s, Unread t)
  | false, _ => match perform (CCreateUser user) s with (s1, inr e) => r = (s1, Failed e) | (s1, inl _) => r = (s1, Fine) end
  end.
Proof.
  intros St E perform user password input s pw r. subst pw r. unfold execute, one. destruct password; cbn [fst].
  - destruct (fst (read_password true input)); [|reflexivity|reflexivity]. destruct (perform (CCreateUser user) s) as [s1 [id|e]]; [|reflexivity]. destruct (perform (CSetUserPassword (Id id) p) s1) as [s2 [x|e]]; reflexivity.
  - destruct (perform (CCreateUser user) s) as [s1 [id|e]]; reflexivity.
Qed.
Theorem C105_set_password : forall St E (perform : call -> St -> St * (N + E)) user input s,
  match fst (read_password true input) with
  | Typed p => forall s' a, perform (CSetUserPassword (Named user) p) s = (s', a) -> execute perform (SetPassword user) input s = (s', match a with inl _ => Fine | inr e => Failed e end)
  | t => execute perform (SetPassword user) input s = (s, Unread t)
  end.
Proof.
  intros St E perform user input s. unfold execute, one. destruct (fst (read_password true input)); [|reflexivity|reflexivity]. intros s' a ->. destruct a; reflexivity.
Qed.
(* the others make exactly the call of their name *)
Theorem C105_one_call : forall St E (perform : call -> St -> St * (N + E)) u x input s c k,
  In (c, k) [(AddRole u x, CAddRole u x); (RemoveRole u x, CRemoveRole u x); (AddGroup u x, CAddGroup u x); (RemoveGroup u x, CRemoveGroup u x)] ->
  forall s' a, perform k s = (s', a) -> execute perform c input s = (s', match a with inl _ => Fine | inr e => Failed e end).
Proof. intros St E perform u x input s c k I s' a P. destruct I as [I|[I|[I|[I|[]]]]]; injection I as <- <-; unfold execute, one; rewrite P; destruct a; reflexivity. Qed.
(* FINDING: the two calls of create --password are not one: if the second fails the command
   fails, but the user is there, without a password *)
Theorem C105_create_refuted : forall St E (perform : call -> St -> St * (N + E)) user input s s1 id p s2 e,
  fst (read_password true input) = Typed p -> perform (CCreateUser user) s = (s1, inl id) -> perform (CSetUserPassword (Id id) p) s1 = (s2, inr e) ->
  execute perform (Create user true) input s = (s2, Failed e).
Proof. intros St E perform user input s s1 id p s2 e T A B. pose proof (C105_create St E perform user true input s) as X. cbv zeta in X. rewrite T, A, B in X. exact X. Qed.

(* ---------- schema items ---------- *)
(* an encoded name is read as what it is *)
Theorem C105_items : (forall v, api_vname v -> item_of (v_encoded v) = Some (IView v)) /\ (forall q, api_qname q -> item_of (q_encoded q) = Some (ICollection q)).
Proof.
  split; intros x A; unfold item_of; [rewrite v_roundtrip by exact A; reflexivity|]. destruct (v_parse (q_encoded x)) as [v|] eqn:V; [exfalso|rewrite q_roundtrip by exact A; reflexivity].
  destruct A as (A & B). unfold v_parse, q_encoded, display_q in V. fold (name_encoded (q_auth x)) in V. fold (name_encoded (q_name x)) in V.
  change ([dot] ++ name_encoded (q_name x)) with (dot :: name_encoded (q_name x)) in V. rewrite rsplit_once_app in V by (apply encoded_no_dot; exact B).
  unfold q_parse in V. rewrite split_dots_nodot in V by (apply encoded_no_dot; exact A). discriminate.
Qed.
(* the names the tool lists can be given back to it if they consist of letters, digits and '-' *)
Theorem C105_listed : forall q, api_qname q -> Forall (fun c => Names.plain c = true) (nm_text (q_auth q)) -> Forall (fun c => Names.plain c = true) (nm_text (q_name q)) ->
  item_of (listed q) = Some (ICollection q).
Proof.
  intros q A P1 P2. assert (E : forall n, api_name n -> Forall (fun c => Names.plain c = true) (nm_text n) -> display_name false n = display_name true n).
  { intros n (s & _ & ->) P. unfold display_name. cbn [andb name_of nm_text nm_escape] in *. rewrite (proj2 (forallb_forall _ _)) by (apply Forall_forall; exact P). reflexivity. }
  unfold listed, display_q. rewrite (E _ (proj1 A) P1), (E _ (proj2 A) P2). apply (proj2 C105_items q A).
Qed.
(* FINDING: other names are refused, or read as another name: my_app is not accepted as listed, a_62 means ab *)
Theorem C105_listed_refuted :
  (exists q, api_qname q /\ item_of (listed q) = None) /\
  (exists q q', api_qname q /\ api_qname q' /\ q <> q' /\ item_of (listed q) = Some (ICollection q')).
Proof.
  assert (AN : forall s, str_okb s = true -> utf8 s = s -> api_name (name_of s)) by (intros s O U; exists s; split; [apply str_okb_spec, O|rewrite U; reflexivity]).
  split.
  - exists (mk_qname (name_of [109; 121; 95; 97; 112; 112]) (name_of [98])). split; [split; apply AN; reflexivity|]. reflexivity.
  - exists (mk_qname (name_of [97; 95; 54; 50]) (name_of [98])), (mk_qname (name_of [97; 98]) (name_of [98])). split; [split; apply AN; reflexivity|]. split; [split; apply AN; reflexivity|]. split; [discriminate|reflexivity].
Qed.

(* ---------- the options ---------- *)
Definition opt {A B} (f : A -> B) (o : option A) : list B := match o with Some x => [f x] | None => [] end.
(* who a command runs as: the user first, then the token *)
Definition identities (o : options) (p : str) : list identity := opt (fun u => ByPassword u p) (o_user o) ++ opt ByToken (o_token o).
(* what the tool does if nothing fails, oldest first; [p]: the password typed *)
Definition plan (k : kind) (o : options) (p : str) : list action :=
  opt ReadPin (o_pin o) ++
  match k, o_url o with
  | Builtin, Some _ => [Refuse]
  | Builtin, None => [OpenServer; RunBuiltin]
  | External, Some url => Connect url (o_pin o) :: map Authenticate (identities o p) ++ [RunExternal (Remote url (o_pin o)) (identities o p)]
  | External, None => OpenServer :: map Authenticate (identities o p) ++ [RunExternal Local (identities o p)]
  end.
Section Tool.
Variables (works : list action -> action -> bool) (has_secret : bool).
Notation tool := (tool works has_secret).
(* every run of the tool is a beginning of its plan, and all of it if it succeeds: a command
   of the application runs only after every identity asked for was authenticated, in order, on
   the connection it then gets; with --url a built-in command is refused before anything is opened *)
Theorem C105_plan : forall k o input l ok, tool k o input = (l, ok) ->
  exists p rest, plan k o p = rev l ++ rest /\
    (ok = true -> rest = [] /\ (k = External -> o_user o <> None -> fst (read_password false input) = Typed p)) /\
    (k = Builtin -> o_url o <> None -> ok = false).
Proof.
  assert (ACT : forall a l k r, act works a l k = r -> (works l a = true /\ k (a :: l) = r) \/ r = (a :: l, false)).
  { intros a l k r <-. unfold act. destruct (works l a); auto. }
  assert (AUTH : forall o input t l0 l ok, authenticated works has_secret o input t l0 = (l, ok) -> exists p rest,
    rev l0 ++ map Authenticate (identities o p) ++ [RunExternal t (identities o p)] = rev l ++ rest /\ (ok = true -> rest = [] /\ (o_user o <> None -> fst (read_password false input) = Typed p))).
  { intros o input t l0 l ok R. unfold authenticated in R. unfold identities.
    assert (GO : forall who l1 l ok,
      match o_token o with
      | Some id => if has_secret then act works (Authenticate (ByToken id)) l1 (fun l => act works (RunExternal t (who ++ [ByToken id])) l (fun l => (l, true))) else (l1, false)
      | None => act works (RunExternal t who) l1 (fun l => (l, true))
      end = (l, ok) -> exists rest, rev l1 ++ map Authenticate (opt ByToken (o_token o)) ++ [RunExternal t (who ++ opt ByToken (o_token o))] = rev l ++ rest /\ (ok = true -> rest = [])).
    { intros who l1 l2 ok2 X. destruct (o_token o) as [id|]; cbn [opt map app].
      - destruct has_secret; [|injection X as <- <-; eexists; split; [reflexivity|discriminate]].
        apply ACT in X as [(_ & X)|X]; [apply ACT in X as [(_ & X)|X]|]; inversion X; subst; cbn [rev]; (first [exists []; rewrite app_nil_r, <- ?app_assoc; cbn [app]; split; [reflexivity|reflexivity] | eexists; rewrite <- ?app_assoc; cbn [app]; split; [reflexivity|discriminate]]).
      - rewrite app_nil_r. apply ACT in X as [(_ & X)|X]; inversion X; subst; cbn [rev]; exists []; rewrite ?app_nil_r; auto. }
    destruct (o_user o) as [u|]; cbn [opt map app].
    - destruct (fst (read_password false input)) as [p| |]; [|injection R as <- <-; exists [], (Authenticate (ByPassword u []) :: map Authenticate (opt ByToken (o_token o)) ++ [RunExternal t (ByPassword u [] :: opt ByToken (o_token o))]); split; [reflexivity|discriminate]..].
      exists p. apply ACT in R as [(_ & R)|R].
      + apply (GO [ByPassword u p]) in R as (rest & R & K). exists rest. split; [cbn [rev app] in R; rewrite <- app_assoc in R; exact R|auto].
      + inversion R; subst. cbn [rev]. eexists. rewrite <- app_assoc. cbn [app]. split; [reflexivity|discriminate].
    - apply (GO []) in R as (rest & R & K). exists [], rest. split; [exact R|]. intros T. split; [auto|congruence]. }
  assert (CMD : forall k o input l0 l ok, command works has_secret k o input l0 = (l, ok) -> exists p rest,
    rev l0 ++ match k, o_url o with
      | Builtin, Some _ => [Refuse]
      | Builtin, None => [OpenServer; RunBuiltin]
      | External, Some url => Connect url (o_pin o) :: map Authenticate (identities o p) ++ [RunExternal (Remote url (o_pin o)) (identities o p)]
      | External, None => OpenServer :: map Authenticate (identities o p) ++ [RunExternal Local (identities o p)]
      end = rev l ++ rest /\
    (ok = true -> rest = [] /\ (k = External -> o_user o <> None -> fst (read_password false input) = Typed p)) /\
    (k = Builtin -> o_url o <> None -> ok = false)).
  { intros k o input l0 l ok R. unfold command in R. destruct k, (o_url o) as [url|].
    - injection R as <- <-. exists [], []. cbn [rev]. rewrite app_nil_r. split; [reflexivity|]. split; [discriminate|auto].
    - exists []. apply ACT in R as [(_ & R)|R]; [apply ACT in R as [(_ & R)|R]|]; inversion R; subst; cbn [rev]; (first [exists []; rewrite app_nil_r, <- ?app_assoc; cbn [app]; split; [reflexivity|] | eexists; rewrite <- ?app_assoc; cbn [app]; split; [reflexivity|]]); (split; [intros; first [discriminate|split; [reflexivity|discriminate]]|congruence]).
    - apply ACT in R as [(_ & R)|R].
      + apply AUTH in R as (p & rest & R & K). cbn [rev] in R. rewrite <- app_assoc in R. exists p, rest. split; [exact R|]. split; [|discriminate]. intros T. destruct (K T). auto.
      + inversion R; subst. exists []. cbn [rev]. eexists. rewrite <- app_assoc. cbn [app]. split; [reflexivity|]. split; discriminate.
    - apply ACT in R as [(_ & R)|R].
      + apply AUTH in R as (p & rest & R & K). cbn [rev] in R. rewrite <- app_assoc in R. exists p, rest. split; [exact R|]. split; [|discriminate]. intros T. destruct (K T). auto.
      + inversion R; subst. exists []. cbn [rev]. eexists. rewrite <- app_assoc. cbn [app]. split; [reflexivity|]. split; discriminate. }
  intros k o input l ok R. unfold Cli.tool in R. unfold plan. destruct (o_pin o) as [path|] eqn:PN; cbn [opt].
  - apply ACT in R as [(_ & R)|R].
    + apply CMD in R as (p & rest & R & K). rewrite PN in R. exists p, rest. split; [exact R|exact K].
    + inversion R; subst. exists []. eexists. split; [reflexivity|]. split; [discriminate|auto].
  - apply CMD in R as (p & rest & R & K). rewrite PN in R. exists p, rest. split; [exact R|exact K].
Qed.
(* and it gets to the end if every step works, the secret is there and the password is typed *)
Theorem C105_runs : forall k o input, (forall l a, works l a = true) -> has_secret = true -> (k = Builtin -> o_url o = None) ->
  (k = External -> o_user o <> None -> exists p, fst (read_password false input) = Typed p) -> snd (tool k o input) = true.
Proof.
  intros k o input W HS B T. unfold Cli.tool, command, authenticated, act. rewrite HS.
  destruct (o_pin o), k; try rewrite (B eq_refl); try destruct (o_url o); try (destruct (o_user o); [destruct (T eq_refl) as (p & TP); [discriminate|rewrite ?TP]|]); try destruct (o_token o);
    repeat (cbv beta iota; rewrite W); reflexivity.
Qed.
(* FINDING: a built-in command runs with the full rights of the local server, whatever user or
   token was given: neither is looked at *)
Theorem C105_builtin_refuted : forall url pin token user token' user' input input',
  tool Builtin (mk_options url pin token user) input = tool Builtin (mk_options url pin token' user') input'.
Proof. reflexivity. Qed.
End Tool.

(* ---------- concrete cases ---------- *)
Example C105_ex : read_password true ([97; 98; 127; 1; 99; 13] ++ [120; 21; 97; 99; 10; 7]) = (Typed [97; 99], [7]) /\
  Forall printable [97; 99] /\ Forall goes_on [97; 98; 127; 1; 21] /\
  read_line [] (utf8 [233] ++ [127; 13]) = (Some [195], []) /\ read_password true [97; 13; 98; 13] = (Mismatch, []) /\ read_password true [97; 27; 98] = (Cancelled, [98]).
Proof.
  split; [reflexivity|]. split; [repeat constructor; cbn; discriminate|]. split; [|repeat split; reflexivity].
  repeat constructor; unfold goes_on; cbn; intros X; repeat (destruct X as [X|X]; [discriminate X|]); exact X.
Qed.
Example C105_ex_tool : tool (fun _ _ => true) true External (mk_options (Some [104]) None (Some 3) (Some [117])) [112; 13] =
    ([RunExternal (Remote [104] None) [ByPassword [117] [112]; ByToken 3]; Authenticate (ByToken 3); Authenticate (ByPassword [117] [112]); Connect [104] None], true) /\
  tool (fun _ a => match a with Authenticate (ByToken _) => false | _ => true end) true External (mk_options None None (Some 3) None) [] = ([Authenticate (ByToken 3); OpenServer], false) /\
  execute (fun c s => match c with CCreateUser _ => (c :: s, inl 7) | _ => (c :: s, inr tt) end) (Create [117] true) [112; 13; 112; 13] [] =
    ([CSetUserPassword (Id 7) [112]; CCreateUser [117]], Failed tt) /\
  str_ok [233] /\ Exists (fun c => 128 <= c) [233].
Proof. split; [reflexivity|]. split; [reflexivity|]. split; [reflexivity|]. split; [apply str_okb_spec; reflexivity|constructor; discriminate]. Qed.
Print Assumptions C105_typed.
Print Assumptions C105_backspace.
Print Assumptions C105_backspace_empty.
Print Assumptions C105_clear.
Print Assumptions C105_ignored.
Print Assumptions C105_cancel.
Print Assumptions C105_confirmed.
Print Assumptions C105_not_ascii_refuted.
Print Assumptions C105_crlf_refuted.
Print Assumptions C105_create.
Print Assumptions C105_set_password.
Print Assumptions C105_one_call.
Print Assumptions C105_create_refuted.
Print Assumptions C105_items.
Print Assumptions C105_listed.
Print Assumptions C105_listed_refuted.
Print Assumptions C105_plan.
Print Assumptions C105_runs.
Print Assumptions C105_builtin_refuted.
