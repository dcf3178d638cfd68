(* C94: a connection is opened exactly between matching protocol versions, and what the server
   does with a websocket's messages. *)
From Verif Require Import Base Handshake.
From Coq Require Import Lia.
Local Open Scope N_scope.

(* ---------- specification ---------- *)
Definition blanks (l : bytes) : Prop := Forall (fun b => b = 32 \/ b = 9) l.
(* the comma separated list v offers p, with blanks around it *)
Definition offers (v p : bytes) : Prop := exists pre a b post,
  v = pre ++ a ++ p ++ b ++ post /\ blanks a /\ blanks b /\ (pre = [] \/ exists x, pre = x ++ [44]) /\ (post = [] \/ exists y, post = 44 :: y).
(* the value of the first header line of that name *)
Definition first_value (n : bytes) (hs : list (bytes * bytes)) (v : bytes) : Prop :=
  exists h1 h2, hs = h1 ++ (n, v) :: h2 /\ ~ In n (map fst h1).

(* ---------- lists of protocols ---------- *)
Lemma header_first n hs v : header n hs = Some v <-> first_value n hs v.
Proof.
  split.
  - induction hs as [|[m w] hs IH]; cbn [header]; [discriminate|]. destruct (bytes_eqb n m) eqn:E.
    + intros [= ->]. apply bytes_eqb_spec in E. subst m. exists [], hs. split; [reflexivity|intros []].
    + intros H. destruct (IH H) as (h1 & h2 & -> & Ni). exists ((m, w) :: h1), h2. split; [reflexivity|]. cbn [map fst]. intros [X|X]; [|exact (Ni X)]. assert (Y : bytes_eqb n m = true) by (apply bytes_eqb_spec; symmetry; exact X). congruence.
  - intros (h1 & h2 & -> & Ni). induction h1 as [|[m w] h1 IH]; cbn [app header].
    + assert (Y : bytes_eqb n n = true) by (apply bytes_eqb_spec; reflexivity). rewrite Y. reflexivity.
    + destruct (bytes_eqb n m) eqn:E; [apply bytes_eqb_spec in E; destruct Ni; left; symmetry; exact E|]. apply IH. intros X. apply Ni. right. exact X.
Qed.
Lemma header_none n hs : header n hs = None <-> ~ In n (map fst hs).
Proof.
  induction hs as [|[m w] hs IH]; cbn [header map fst]; [split; [intros _ []|reflexivity]|]. destruct (bytes_eqb n m) eqn:E.
  - apply bytes_eqb_spec in E. subst m. split; [discriminate|]. intros X. destruct X. left. reflexivity.
  - rewrite IH. split; [intros Ni [X|X]; [|exact (Ni X)]|intros Ni X; apply Ni; right; exact X]. assert (Y : bytes_eqb n m = true) by (apply bytes_eqb_spec; symmetry; exact X). congruence.
Qed.
Lemma split_ne l : split_commas l <> [].
Proof. induction l as [|b l IH]; [discriminate|]. cbn [split_commas]. destruct (b =? 44); [discriminate|]. destruct (split_commas l); discriminate. Qed.
Lemma split_plain p : ~ In 44 p -> split_commas p = [p].
Proof.
  induction p as [|b p IH]; intros Ni; [reflexivity|]. cbn [split_commas]. destruct (N.eqb_spec b 44) as [->|_]; [destruct Ni; left; reflexivity|]. rewrite IH; [reflexivity|]. intros X. apply Ni. right. exact X.
Qed.
Lemma split_app x y : split_commas (x ++ 44 :: y) = split_commas x ++ split_commas y.
Proof.
  induction x as [|b x IH]; [reflexivity|]. cbn [app split_commas]. rewrite IH. destruct (b =? 44); [reflexivity|]. destruct (split_commas x) as [|p ps] eqn:E; [destruct (split_ne x E)|reflexivity].
Qed.
Fixpoint join (l : list bytes) : bytes := match l with [] => [] | p :: r => match r with [] => p | _ => p ++ 44 :: join r end end.
Lemma join_split l : join (split_commas l) = l.
Proof.
  induction l as [|b l IH]; [reflexivity|]. cbn [split_commas]. destruct (N.eqb_spec b 44) as [->|_].
  - cbn [join]. destruct (split_commas l) eqn:E; [destruct (split_ne l E)|]. rewrite IH. reflexivity.
  - destruct (split_commas l) as [|p ps] eqn:E; [destruct (split_ne l E)|]. rewrite <- IH. cbn [join]. destruct ps; reflexivity.
Qed.
Lemma join_cons p r : r <> [] -> join (p :: r) = p ++ 44 :: join r.
Proof. destruct r; [intros X; destruct (X eq_refl)|reflexivity]. Qed.
Lemma join_at l1 p l2 : exists pre post, join (l1 ++ p :: l2) = pre ++ p ++ post /\ (pre = [] \/ exists x, pre = x ++ [44]) /\ (post = [] \/ exists y, post = 44 :: y).
Proof.
  induction l1 as [|q l1 IH].
  - exists []. cbn [app]. destruct l2 as [|r l2]; [exists []; cbn [join]; rewrite app_nil_r; auto|]. exists (44 :: join (r :: l2)). split; [reflexivity|]. split; [left; reflexivity|right; eexists; reflexivity].
  - destruct IH as (pre & post & E & Hpre & Hpost). exists (q ++ 44 :: pre), post. cbn [app]. rewrite join_cons; [|destruct l1; discriminate]. rewrite E. split; [rewrite <- !app_assoc; reflexivity|]. split; [right|exact Hpost].
    destruct Hpre as [->|(x & ->)]; [exists q; reflexivity|exists (q ++ 44 :: x); rewrite <- app_assoc; reflexivity].
Qed.
Lemma blank_spec b : blank b = true <-> b = 32 \/ b = 9.
Proof. unfold blank. rewrite Bool.orb_true_iff, !N.eqb_eq. reflexivity. Qed.
Lemma trim_start_split l : exists a, l = a ++ trim_start l /\ blanks a.
Proof.
  induction l as [|b l (a & E & B)]; [exists []; split; [reflexivity|constructor]|]. cbn [trim_start]. destruct (blank b) eqn:K; [|exists []; split; [reflexivity|constructor]].
  exists (b :: a). split; [cbn [app]; rewrite <- E; reflexivity|]. constructor; [apply blank_spec; exact K|exact B].
Qed.
Lemma trim_start_blanks a l : blanks a -> trim_start (a ++ l) = trim_start l.
Proof. induction 1 as [|b a K _ IH]; [reflexivity|]. cbn [app trim_start]. apply blank_spec in K. rewrite K. exact IH. Qed.
Lemma blanks_rev a : blanks a -> blanks (rev a).
Proof. intros B. apply Forall_rev. exact B. Qed.
Lemma trim_split l : exists a b, l = a ++ trim l ++ b /\ blanks a /\ blanks b.
Proof.
  destruct (trim_start_split l) as (a & E & B). destruct (trim_start_split (rev (trim_start l))) as (b & E2 & B2). exists a, (rev b). split; [|split; [exact B|apply blanks_rev; exact B2]].
  unfold trim. rewrite E at 1. f_equal. rewrite <- (rev_involutive (trim_start l)), E2 at 1. rewrite rev_app_distr. reflexivity.
Qed.
Lemma trim_version a b : blanks a -> blanks b -> trim (a ++ current_version ++ b) = current_version.
Proof.
  intros A B. unfold trim. rewrite (trim_start_blanks a _ A). change (trim_start (current_version ++ b)) with (current_version ++ b).
  rewrite rev_app_distr, (trim_start_blanks _ _ (blanks_rev _ B)). reflexivity.
Qed.
Lemma in_split p v : In p (split_commas v) -> exists pre post, v = pre ++ p ++ post /\ (pre = [] \/ exists x, pre = x ++ [44]) /\ (post = [] \/ exists y, post = 44 :: y).
Proof. intros I. apply in_split in I. destruct I as (l1 & l2 & E). destruct (join_at l1 p l2) as (pre & post & J & X). exists pre, post. split; [|exact X]. rewrite <- J, <- E, join_split. reflexivity. Qed.
Lemma split_has pre p post : ~ In 44 p -> (pre = [] \/ exists x, pre = x ++ [44]) -> (post = [] \/ exists y, post = 44 :: y) -> In p (split_commas (pre ++ p ++ post)).
Proof.
  intros Ni Hpre Hpost. assert (X : In p (split_commas (p ++ post))).
  { destruct Hpost as [->|(y & ->)]; [rewrite app_nil_r, (split_plain p Ni); left; reflexivity|]. rewrite split_app, (split_plain p Ni). left. reflexivity. }
  destruct Hpre as [->|(x & ->)]; [exact X|]. rewrite <- app_assoc. cbn [app]. rewrite split_app. apply in_or_app. right. exact X.
Qed.
Lemma offers_spec v : existsb (bytes_eqb current_version) (map trim (split_commas v)) = true <-> offers v current_version.
Proof.
  rewrite existsb_exists. split.
  - intros (q & I & E). apply bytes_eqb_spec in E. subst q. apply in_map_iff in I. destruct I as (p & T & I). destruct (in_split p v I) as (pre & post & -> & X & Y). destruct (trim_split p) as (a & b & Ep & A & B).
    rewrite T in Ep. exists pre, a, b, post. split; [rewrite Ep, <- !app_assoc; reflexivity|]. repeat split; assumption.
  - intros (pre & a & b & post & -> & A & B & X & Y). exists current_version. split; [|apply bytes_eqb_spec; reflexivity]. apply in_map_iff. exists (a ++ current_version ++ b). split; [apply trim_version; assumption|].
    replace (pre ++ a ++ current_version ++ b ++ post) with (pre ++ (a ++ current_version ++ b) ++ post) by (rewrite <- !app_assoc; reflexivity). apply split_has; [|exact X|exact Y].
    assert (Nb : forall l, blanks l -> ~ In 44 l). { intros l Bl I. pose proof (proj1 (Forall_forall _ _) Bl 44 I) as K. cbv beta in K. destruct K; discriminate. }
    intros I. apply in_app_or in I. destruct I as [I|I]; [exact (Nb a A I)|]. apply in_app_or in I. destruct I as [I|I]; [|exact (Nb b B I)]. cbn in I. repeat (destruct I as [I|I]; [discriminate I|]). exact I.
Qed.

(* ---------- theorems ---------- *)
(* The raw websocket listener accepts a request exactly if its first Sec-WebSocket-Protocol line
   is text that offers the server's version, and then it selects that version; every other
   request is answered with 406. *)
Theorem C94_accepts hs :
  (exists v, first_value h_protocol hs v /\ Forall (fun b => 32 <= b < 127 \/ b = 9) v /\ offers v current_version) /\
    on_request hs = inl (Response 101 [(h_protocol, current_version)]) \/
  ~ (exists v, first_value h_protocol hs v /\ Forall (fun b => 32 <= b < 127 \/ b = 9) v /\ offers v current_version) /\
    on_request hs = inr (Response 406 []).
Proof.
  assert (Vis : forall v, forallb visible v = true <-> Forall (fun b => 32 <= b < 127 \/ b = 9) v).
  { intros v. rewrite forallb_forall, Forall_forall. split; intros H b I; specialize (H b I); unfold visible in *; rewrite Bool.orb_true_iff, Bool.andb_true_iff, N.leb_le, N.ltb_lt, N.eqb_eq in *; exact H. }
  unfold on_request. destruct (header h_protocol hs) as [v|] eqn:E.
  - destruct (forallb visible v && existsb (bytes_eqb current_version) (map trim (split_commas v))) eqn:T.
    + left. split; [|reflexivity]. apply Bool.andb_true_iff in T. destruct T as [T1 T2]. exists v. split; [apply header_first; exact E|]. split; [apply Vis; exact T1|apply offers_spec; exact T2].
    + right. split; [|reflexivity]. intros (w & F & Vw & O). apply header_first in F. rewrite F in E. inversion E; subst w. apply Vis in Vw. apply offers_spec in O. rewrite Vw, O in T. discriminate T.
  - right. split; [|reflexivity]. intros (w & F & _). apply header_first in F. congruence.
Qed.
(* A client whose version is a plain token is connected over either transport exactly if it has
   the server's version, and is told ProtocolVersionMismatch otherwise. *)
Theorem C94_client version key : version <> [] -> Forall (fun b => 32 < b < 127 /\ b <> 44) version ->
  (version = current_version -> connect_raw version key = Connected /\ connect_quic version = Connected) /\
  (version <> current_version -> connect_raw version key = ProtocolVersionMismatch /\ connect_quic version = ProtocolVersionMismatch).
Proof.
  intros Ne Tok. split.
  - intros ->. split; reflexivity.
  - intros Df. split.
    + unfold connect_raw. destruct (C94_accepts (ws_request version key)) as [[(v & F & _ & O) _]|[_ ->]]; [|reflexivity]. exfalso.
      apply header_first in F. change (header h_protocol (ws_request version key)) with (Some version) in F. inversion F; subst v. destruct O as (pre & a & b & post & E & A & B & X & Y).
      assert (Nb : forall l, blanks l -> (forall c, In c l -> In c version) -> l = []).
      { intros [|c l] Bl Sub; [reflexivity|]. inversion Bl; subst. pose proof (proj1 (Forall_forall _ _) Tok c (Sub c (or_introl eq_refl))) as K. cbv beta in K. destruct K as [K _]. exfalso. lia. }
      assert (Nc : ~ In 44 version). { intros I. pose proof (proj1 (Forall_forall _ _) Tok 44 I) as K. cbv beta in K. lia. }
      assert (Ea : a = []). { apply (Nb a A). intros c I. rewrite E. apply in_or_app. right. apply in_or_app. left. exact I. }
      assert (Eb : b = []). { apply (Nb b B). intros c I. rewrite E. do 3 (apply in_or_app; right). apply in_or_app. left. exact I. }
      assert (Epre : pre = []). { destruct X as [->|(x & ->)]; [reflexivity|]. exfalso. apply Nc. rewrite E. apply in_or_app. left. apply in_or_app. right. left. reflexivity. }
      assert (Epost : post = []). { destruct Y as [->|(y & ->)]; [reflexivity|]. exfalso. apply Nc. rewrite E. do 4 (apply in_or_app; right). left. reflexivity. }
      apply Df. rewrite E, Ea, Eb, Epre, Epost. cbn [app]. rewrite app_nil_r. reflexivity.
    + unfold connect_quic. cbn [existsb]. destruct (bytes_eqb version current_version) eqn:Q; [apply bytes_eqb_spec in Q; contradiction|reflexivity].
Qed.
(* upgrade_websocket answers 400 without an Upgrade or a Sec-WebSocket-Key header and otherwise
   101 with the digest of that key and the protocol's GUID *)
Theorem C94_upgrade digest hs :
  (~ In h_upgrade (map fst hs) \/ ~ In h_key (map fst hs) -> upgrade_websocket digest hs = Response 400 []) /\
  (forall k, In h_upgrade (map fst hs) -> first_value h_key hs k ->
     status (upgrade_websocket digest hs) = 101 /\ first_value h_accept (headers (upgrade_websocket digest hs)) (digest (k ++ guid)) /\
     first_value h_upgrade (headers (upgrade_websocket digest hs)) s_websocket /\ first_value h_connection (headers (upgrade_websocket digest hs)) h_upgrade).
Proof.
  unfold upgrade_websocket. split.
  - intros [X|X]; apply header_none in X; rewrite X; [reflexivity|]. destruct (header h_upgrade hs); reflexivity.
  - intros k I F. apply header_first in F. rewrite F. destruct (header h_upgrade hs) eqn:E; [|apply header_none in E; contradiction]. cbn [status headers]. rewrite <- !header_first. repeat split; reflexivity.
Qed.
(* The server's loop: of a websocket's messages it takes the longest run of decodable binary
   messages and pings, in order, hands on each request and answers each ping with its own bytes,
   and stops at the first other message. *)
Theorem C94_messages {Rq} (decode : bytes -> option Rq) l : exists n, n = length (fst (read_loop decode l)) /\
  Forall2 (fun m e => match m with Binary b => exists r, decode b = Some r /\ e = Request r | Ping b => e = Answer b | _ => False end) (firstn n l) (fst (read_loop decode l)) /\
  (snd (read_loop decode l) = true -> n = length l) /\
  (snd (read_loop decode l) = false -> exists m, nth_error l n = Some m /\ match m with Binary b => decode b = None | Ping _ => False | _ => True end).
Proof.
  induction l as [|m l (n & En & F & T & S)]; [exists 0%nat; repeat split; [constructor|discriminate]|].
  assert (Stop : forall m', m' = m -> match m' with Binary b => decode b = None | Ping _ => False | _ => True end -> read_loop decode (m' :: l) = ([], false)).
  { intros m' _ K. destruct m'; cbn [read_loop]; try reflexivity; [rewrite K; reflexivity|destruct K]. }
  assert (End : match m with Binary b => decode b = None | Ping _ => False | _ => True end -> exists k, k = length (fst (read_loop decode (m :: l))) /\
    Forall2 (fun m e => match m with Binary b => exists r, decode b = Some r /\ e = Request r | Ping b => e = Answer b | _ => False end) (firstn k (m :: l)) (fst (read_loop decode (m :: l))) /\
    (snd (read_loop decode (m :: l)) = true -> k = length (m :: l)) /\
    (snd (read_loop decode (m :: l)) = false -> exists m0, nth_error (m :: l) k = Some m0 /\ match m0 with Binary b => decode b = None | Ping _ => False | _ => True end)).
  { intros K. rewrite (Stop m eq_refl K). cbn [fst snd]. exists 0%nat. split; [reflexivity|]. split; [constructor|]. split; [discriminate|]. intros _. exists m. split; [reflexivity|exact K]. }
  destruct m as [b|b| |b|b|]; try (apply End; exact I).
  - destruct (decode b) as [p|] eqn:D; [|apply End; reflexivity]. clear End Stop. cbn [read_loop]. rewrite D. destruct (read_loop decode l) as [es on]. cbn [fst snd] in *. exists (Datatypes.S n). split; [cbn [length]; rewrite En; reflexivity|].
    split; [cbn [firstn]; constructor; [exists p; split; [exact D|reflexivity]|exact F]|]. split; [intros X; cbn [length]; rewrite (T X); reflexivity|]. intros X. exact (S X).
  - clear End Stop. cbn [read_loop]. destruct (read_loop decode l) as [es on]. cbn [fst snd] in *. exists (Datatypes.S n). split; [cbn [length]; rewrite En; reflexivity|].
    split; [cbn [firstn]; constructor; [reflexivity|exact F]|]. split; [intros X; cbn [length]; rewrite (T X); reflexivity|]. intros X. exact (S X).
Qed.

(* ---------- examples and findings ---------- *)
Example C94_accepts_example : on_request [(h_protocol, [120;44;32] ++ current_version ++ [9;44;121])] = inl (Response 101 [(h_protocol, current_version)]) /\
  on_request [(h_protocol, current_version ++ [50])] = inr (Response 406 []) /\ on_request [] = inr (Response 406 []).
Proof. repeat split; vm_compute; reflexivity. Qed.
Example C94_client_example : connect_raw [98;111;110;115;97;105;45;112;114;101;45;50] [97] = ProtocolVersionMismatch /\ connect_raw current_version [97] = Connected /\ Forall (fun b => 32 < b < 127 /\ b <> 44) current_version.
Proof. split; [vm_compute; reflexivity|]. split; [vm_compute; reflexivity|]. unfold current_version. repeat constructor; discriminate. Qed.
Example C94_upgrade_example : upgrade_websocket (fun b => b) [(h_upgrade, s_websocket); (h_key, [1])] = Response 101 [(h_upgrade, s_websocket); (h_connection, h_upgrade); (h_accept, 1 :: guid)] /\ upgrade_websocket (fun b => b) [(h_key, [1])] = Response 400 [].
Proof. split; vm_compute; reflexivity. Qed.
Example C94_messages_example : read_loop (fun b => match b with [x] => Some x | _ => None end) [Ping [7]; Binary [1]; Binary [2]; Close; Binary [3]] = ([Answer [7]; Request 1; Request 2], false) /\
  read_loop (fun b => match b with [x] => Some x | _ => None end) [Binary [1]; Pong []; Binary [2]] = ([Request 1], false).
Proof. split; vm_compute; reflexivity. Qed.
(* Through a hyper server that calls upgrade_websocket no version is compared: a client of any
   version is connected. *)
Theorem C94_hyper_unversioned_refuted digest key version : connect_hyper digest version key = Connected.
Proof. unfold connect_hyper, upgrade_websocket. change (header h_upgrade (ws_request version key)) with (Some s_websocket). change (header h_key (ws_request version key)) with (Some key). reflexivity. Qed.
(* Only the first header line is read, although a list may be split over several: a request that
   offers the server's version in its second line is refused. *)
Theorem C94_second_line_refuted : exists hs, In (h_protocol, current_version) hs /\ on_request hs = inr (Response 406 []).
Proof. exists [(h_protocol, [120]); (h_protocol, current_version)]. split; [right; left; reflexivity|vm_compute; reflexivity]. Qed.

Print Assumptions C94_accepts.
Print Assumptions C94_client.
Print Assumptions C94_upgrade.
Print Assumptions C94_messages.
Print Assumptions C94_hyper_unversioned_refuted.
Print Assumptions C94_second_line_refuted.
