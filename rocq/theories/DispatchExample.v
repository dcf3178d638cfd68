(* A concrete instance of the parameters of Dispatch.v, for the examples of
   PropDispatch.v: a codec that can be decoded, a small local implementation. *)
From Coq Require Import String Ascii.
From Verif Require Import Base Dispatch.
Close Scope string_scope.
Local Open Scope list_scope.

(* A self-delimiting encoding of each type *)
Record ser (T : Type) := mk_ser { enc : T -> list N; dec : list N -> option (T * list N); law : forall x r, dec (enc x ++ r) = Some (x, r) }.
Arguments enc {T}. Arguments dec {T}. Arguments law {T}.
Definition ser_unit : ser unit.
Proof. refine (mk_ser unit (fun _ => []) (fun l => Some (tt, l)) _). intros []. reflexivity. Defined.
Definition ser_N : ser N.
Proof. refine (mk_ser N (fun x => [x]) (fun l => match l with x :: r => Some (x, r) | [] => None end) _). reflexivity. Defined.
Definition ser_bool : ser bool.
Proof.
  refine (mk_ser bool (fun x : bool => if x then [1%N] else [0%N]) (fun l => match l with 1%N :: r => Some (true, r) | 0%N :: r => Some (false, r) | _ => None end) _).
  intros [|] r; reflexivity.
Defined.
Definition ser_pair {A B} (a : ser A) (b : ser B) : ser (A * B).
Proof.
  refine (mk_ser (A * B) (fun '(x, y) => enc a x ++ enc b y)
    (fun l => match dec a l with Some (x, l) => match dec b l with Some (y, l) => Some ((x, y), l) | None => None end | None => None end) _).
  intros [x y] r. rewrite <- app_assoc, (law a), (law b). reflexivity.
Defined.
Definition ser_sum {A B} (a : ser A) (b : ser B) : ser (A + B).
Proof.
  refine (mk_ser (A + B) (fun x => match x with inl x => 0%N :: enc a x | inr y => 1%N :: enc b y end)
    (fun l => match l with
              | 0%N :: l => match dec a l with Some (x, l) => Some (inl x, l) | None => None end
              | 1%N :: l => match dec b l with Some (x, l) => Some (inr x, l) | None => None end
              | _ => None end) _).
  intros [x|y] r; cbn; rewrite law; reflexivity.
Defined.
Definition ser_iso {A B} (f : A -> B) (g : B -> A) (e : forall y, f (g y) = y) (a : ser A) : ser B.
Proof.
  refine (mk_ser B (fun y => enc a (g y)) (fun l => match dec a l with Some (x, l) => Some (f x, l) | None => None end) _).
  intros y r. rewrite (law a), e. reflexivity.
Defined.
Definition ser_option {A} (a : ser A) : ser (option A).
Proof.
  refine (ser_iso (fun x : unit + A => match x with inl _ => None | inr x => Some x end)
    (fun o => match o with Some x => inr x | None => inl tt end) _ (ser_sum ser_unit a)). intros [x|]; reflexivity.
Defined.
Fixpoint dec_n {A} (a : ser A) (n : nat) (l : list N) : option (list A * list N) :=
  match n with
  | O => Some ([], l)
  | S n => match dec a l with Some (x, l) => match dec_n a n l with Some (xs, l) => Some (x :: xs, l) | None => None end | None => None end
  end.
Definition ser_list {A} (a : ser A) : ser (list A).
Proof.
  refine (mk_ser (list A) (fun xs => N.of_nat (length xs) :: flat_map (enc a) xs)
    (fun l => match l with n :: l => dec_n a (N.to_nat n) l | [] => None end) _).
  intros xs r. cbn. rewrite Nat2N.id. induction xs as [|x xs IH]; cbn; [reflexivity|]. rewrite <- app_assoc, (law a), IH. reflexivity.
Defined.
Definition ser_string : ser string.
Proof.
  refine (ser_iso (fun l => string_of_list_ascii (map ascii_of_N l)) (fun s => map N_of_ascii (list_ascii_of_string s)) _ (ser_list ser_N)).
  intros s. rewrite map_map. rewrite (map_ext _ (fun x => x)) by apply ascii_N_embedding. rewrite map_id. apply string_of_list_ascii_of_string.
Defined.
Definition ser_err : ser core_error.
Proof.
  refine (ser_iso (fun x => match x with
                            | inl n => CoreError n | inr (inl (a, b)) => ApiNotFound (a, b)
                            | inr (inr (inl 0%N)) => CorePermissionDenied | inr (inr (inl 1%N)) => Serialization | inr (inr (inl _)) => RequestTimeout
                            | inr (inr (inr (o, n))) => Other o n end)
    (fun e => match e with
              | CoreError n => inl n | ApiNotFound (a, b) => inr (inl (a, b)) | CorePermissionDenied => inr (inr (inl 0%N))
              | Serialization => inr (inr (inl 1%N)) | RequestTimeout => inr (inr (inl 2%N)) | Other o n => inr (inr (inr (o, n))) end) _
    (ser_sum ser_N (ser_sum (ser_pair ser_string ser_string) (ser_sum ser_N (ser_pair ser_string ser_N))))).
  intros [n|[a b]| | |o n|]; reflexivity.
Defined.
Definition ser_bytes : ser bytes := ser_list ser_N.

Definition ser_req (a : api) : ser (req a).
Proof. destruct a; cbn; unfold value, name, topic, payload; repeat first [exact ser_unit|exact ser_N|exact ser_bool|exact ser_bytes|apply ser_pair|apply ser_option|apply ser_list]. Defined.
Definition ser_resp (a : api) : ser (resp a).
Proof. destruct a; cbn; unfold value; repeat first [exact ser_unit|exact ser_N|exact ser_bytes|apply ser_option|apply ser_list]. Defined.

Definition ex_codec : codec := {|
  enc_req a := enc (ser_req a);
  dec_req a l := option_map fst (dec (ser_req a) l);
  enc_resp a := enc (ser_sum (ser_resp a) ser_err);
  dec_resp a l := option_map fst (dec (ser_sum (ser_resp a) ser_err) l)
|}.
Lemma ex_lawful : lawful ex_codec.
Proof.
  split; intros a r; cbn [dec_req enc_req dec_resp enc_resp ex_codec].
  - rewrite <- (app_nil_r (enc (ser_req a) r)), law. reflexivity.
  - rewrite <- (app_nil_r (enc (ser_sum (ser_resp a) ser_err) r)), law. reflexivity.
Qed.

(* A storage whose world is the list of what was done to it. Its only database is
   [1]; handle 0 is anonymous and may do little. *)
Definition W0 := list value.
Definition did {A} (v : value) (a : A) : M W0 A := fun w => (w ++ [v], Done a).
Definition ex_db : db_ops W0 N := {|
  list_executed_transactions d s l := did 1%N [d];
  last_transaction_id d := fun w => (w, Fail CorePermissionDenied);
  compact d := did 2%N tt;
  compact_key_value_store d := did 3%N tt;
  compact_collection_by_name d c := did (10 + c)%N tt;
  apply_transaction d t := did (20 + t)%N [t];
  get_from_collection d id c := fun w => if (id =? 9)%N then (w, Fail (CoreError 9)) else if (id =? 13)%N then (w, Panic) else (w ++ [4%N], Done (Some (100 * id + c)%N));
  get_multiple_from_collection d ids c := did 5%N ids;
  list_from_collection d i o l c := did 6%N [i; o; c];
  list_headers_from_collection d i o l c := did 7%N [i; o; c];
  count_from_collection d i c := did 8%N (i * 10 + c)%N;
  query_by_name d v k o l p := did 9%N [v; o; p];
  query_by_name_with_docs d v k o l p := did 10%N (v * 100 + o * 10 + p)%N;
  reduce_by_name d v k p := did 11%N [v; p];
  reduce_grouped_by_name d v k p := did 12%N [v; p];
  delete_docs_by_name d v k p := did 13%N (v * 10 + p)%N;
  execute_key_operation d op := did 14%N op;
  create_subscriber d := did 15%N 77%N;
  publish_bytes d t p := did 16%N tt;
  publish_bytes_to_all d t p := did 17%N tt
|}.
Definition ex_storage : storage_ops W0 N N := {|
  admin h := ret 0%N;
  database h DB n := fun w => if bytes_eqb n [1%N] then if (DB =? 1)%N then (w, Done 1%N) else (w, Fail (CoreError 3)) else (w, Fail (CoreError 2));
  create_database_with_schema h n s i := did 20%N tt;
  delete_database h n := did 21%N tt;
  list_databases h := did 22%N [1%N];
  list_available_schemas h := did 23%N [1%N];
  create_user h n := if (h =? 0)%N then fail CorePermissionDenied else did 24%N 5%N;
  delete_user h u := did 25%N tt;
  set_user_password h u p := did 26%N tt;
  authenticate h a := if (a =? 3)%N then did 27%N 42%N else fail (CoreError 4);
  assume_identity h a := did 28%N 43%N;
  add_permission_group_to_user h u g := did 29%N tt;
  remove_permission_group_from_user h u g := did 30%N tt;
  add_role_to_user h u g := did 31%N tt;
  remove_role_from_user h u g := did 32%N tt
|}.
Definition ex_local : local W0 N N := {|
  l_storage := ex_storage; l_db := ex_db; cur _ w := Some (N.of_nat (length w)); may _ _ := false;
  l_without_schema h n := fun w => if bytes_eqb n [1%N] then (w, Done 1%N) else (w, Fail (LCore (CoreError 2)));
  session h := h
|}.
Definition ex_conn : connection (W := W0) (H := N) := {|
  logged_in_as s w := w ++ [(1000 + s)%N]; log_out i w := w ++ [(2000 + i)%N]; register_subscriber h i w := w ++ [(3000 + i)%N];
  subscribe_by_id h i t := ret tt; unsubscribe_by_id h i t := ret tt; unregister_subscriber_by_id h i := ret tt
|}.
(* the session of the request: session 42 exists, requests without one are anonymous *)
Definition ex_assume (sid : option N) (w : W0) : outcome N core_error :=
  match sid with None => Done 0%N | Some s => if (s =? 42)%N then Done 42%N else Fail (CoreError 6) end.
(* custom APIs, one of which takes the name of a built-in one *)
Definition ex_custom : list (apiname * any_handler (W := W0) (H := N)) :=
  [(api_name Get, fun h b => fail (SOther 1)); (("acme"%string, "ping"%string), fun h b => fail (SOther 2));
   (("acme"%string, "ping"%string), any_wrapper (A := bytes) (R := bytes) (E := N)
      (fun b => option_map fst (dec ser_bytes b)) (enc (ser_sum ser_bytes ser_N))
      (fun h q => match q with [] => fail (HApi 8%N) | _ => fun w => (w, Done (rev q)) end))].
Definition ex_R ph := open_registry ex_local ex_codec ex_conn ph ex_custom.
Definition ex_net_db ph := remote_db ex_codec ex_assume (ex_R ph).
Definition ex_net ph := remote_storage ex_codec ex_assume (ex_R ph) Some (fun DB => Done DB) 0%N [0%N].
