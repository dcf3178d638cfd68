(* A database's schema: registering collections and views, and what the
   registered schema answers.  Everything the code only compares for equality
   (type ids, names, key descriptions, key ids) is a number here; hash maps are
   association lists with one entry per key (their iteration order is not part
   of any claim). *)
From Coq Require Import List NArith Bool.
Import ListNotations.

(* schema/view.rs 203-219 *)
Inductive policy := Lazy | Eager | Unique.
(* schema/view.rs 227-229 *)
Definition is_eager (p : policy) : bool := match p with Eager | Unique => true | Lazy => false end.
(* schema/schematic.rs 236-271 (ViewInstance and the answers of
   view::Serialized for it).  vi_tag stands for the map/reduce code. *)
Record view_inst := View { vi_type : N; vi_name : N; vi_coll : N; vi_key : N; vi_policy : policy; vi_version : N; vi_tag : N }.
(* schema/collection.rs, the associated functions of Collection that
   define_collection consults *)
Record coll_info := CollInfo { ci_type : N; ci_name : N; ci_key : N; ci_enc : option N }.
(* The user's define_collections and define_views as sequences of
   registrations; the flag says that the result is dropped instead of being
   returned with the ? operator.  (Simplification: user code does not look at
   the schematic being built.) *)
Inductive act :=
  | DefView (v : view_inst) (ignored : bool)
  | DefCollection (c : coll_info) (views : list act) (ignored : bool).
Inductive serr := CollectionAlreadyDefined | ViewAlreadyRegistered (name : N) | ViewNotFound.

(* HashMap::get, insert *)
Fixpoint hget {A} (k : N) (l : list (N * A)) : option A :=
  match l with [] => None | (k', a) :: r => if (k =? k')%N then Some a else hget k r end.
Fixpoint hput {A} (k : N) (a : A) (l : list (N * A)) : list (N * A) :=
  match l with [] => [(k, a)] | (k', a') :: r => if (k =? k')%N then (k, a) :: r else (k', a') :: hput k a r end.
(* entry(k).or_default().push(x) *)
Definition hpush (k x : N) (l : list (N * list N)) : list (N * list N) :=
  hput k (match hget k l with Some v => v | None => [] end ++ [x]) l.

(* schematic.rs 18-30; a generator is identified by the type of its collection *)
Record schematic := Schematic {
  contained : list (N * N); by_type : list (N * N); enc_keys : list (N * N); generators : list (N * N);
  views : list (N * view_inst); views_by_name : list (N * N);
  views_by_coll : list (N * list N); eager_by_coll : list (N * list N) }.
(* schematic.rs 35-45 *)
Definition empty_schematic : schematic := Schematic [] [] [] [] [] [] [] [].

(* schematic.rs 79-110 *)
Definition define_view (v : view_inst) (s : schematic) : schematic * option serr :=
  match hget (vi_name v) (views_by_name s) with
  | Some _ => (s, Some (ViewAlreadyRegistered (vi_name v)))
  | None =>
      (Schematic (contained s) (by_type s) (enc_keys s) (generators s)
         (hput (vi_type v) v (views s)) (hput (vi_name v) (vi_type v) (views_by_name s))
         (hpush (vi_coll v) (vi_type v) (views_by_coll s))
         (if is_eager (vi_policy v) then hpush (vi_coll v) (vi_type v) (eager_by_coll s) else eager_by_coll s), None)
  end.
(* schematic.rs 55-64 (up to the call of define_views) *)
Definition insert_collection (c : coll_info) (s : schematic) : schematic :=
  Schematic (hput (ci_name c) (ci_key c) (contained s)) (hput (ci_type c) (ci_name c) (by_type s))
    (match ci_enc c with Some k => hput (ci_name c) k (enc_keys s) | None => enc_keys s end)
    (hput (ci_name c) (ci_type c) (generators s))
    (views s) (views_by_name s) (views_by_coll s) (eager_by_coll s).
(* schematic.rs 51-69 and 72-110, run over the user's definitions *)
Fixpoint run_act (a : act) (s : schematic) : schematic * option serr :=
  match a with
  | DefView v ig => let '(s', e) := define_view v s in (s', if ig then None else e)
  | DefCollection c body ig =>
      let '(s', e) :=
        match hget (ci_name c) (contained s) with
        | Some _ => (s, Some CollectionAlreadyDefined)
        | None =>
            (fix go (l : list act) (s : schematic) : schematic * option serr :=
               match l with
               | [] => (s, None)
               | a :: r => match run_act a s with (s1, Some e) => (s1, Some e) | (s1, None) => go r s1 end
               end) body (insert_collection c s)
        end in
      (s', if ig then None else e)
  end.
Fixpoint run_acts (l : list act) (s : schematic) : schematic * option serr :=
  match l with
  | [] => (s, None)
  | a :: r => match run_act a s with (s1, Some e) => (s1, Some e) | (s1, None) => run_acts r s1 end
  end.
(* schematic.rs 34-48; schema.rs 98-110 (a collection used as a schema registers
   itself) is the definition list [DefCollection c views false] *)
Definition from_schema (l : list act) : schematic + serr :=
  match run_acts l empty_schematic with (s, None) => inl s | (_, Some e) => inr e end.

(* schematic.rs 113-116 *)
Definition contains_collection (ty : N) (s : schematic) : bool := match hget ty (by_type s) with Some _ => true | None => false end.
(* schematic.rs 120-126 *)
Definition key_description (c : N) (s : schematic) : option N := hget c (contained s).
(* schematic.rs 130-140: the generator found, None = CollectionNotFound *)
Definition generator_for (c : N) (s : schematic) : option N := hget c (generators s).
(* schematic.rs 143-149 *)
Definition view_by_name (n : N) (s : schematic) : option view_inst :=
  match hget n (views_by_name s) with Some t => hget t (views s) | None => None end.
(* schematic.rs 152-157 *)
Definition view_of_type (t : N) (s : schematic) : option view_inst := hget t (views s).
(* schematic.rs 160-162 *)
Definition all_views (s : schematic) : list view_inst := map snd (views s).
Fixpoint filter_map {A B} (f : A -> option B) (l : list A) : list B :=
  match l with [] => [] | a :: r => match f a with Some b => b :: filter_map f r | None => filter_map f r end end.
(* schematic.rs 165-177 *)
Definition views_in_collection (c : N) (s : schematic) : list view_inst :=
  match hget c (views_by_coll s) with Some l => filter_map (fun t => hget t (views s)) l | None => [] end.
(* schematic.rs 181-193 *)
Definition eager_views_in_collection (c : N) (s : schematic) : list view_inst :=
  match hget c (eager_by_coll s) with Some l => filter_map (fun t => hget t (views s)) l | None => [] end.
(* schematic.rs 197-199 *)
Definition encryption_key (c : N) (s : schematic) : option N := hget c (enc_keys s).
(* schematic.rs 202-204 *)
Definition collections (s : schematic) : list N := map fst (contained s).

(* schema/summary.rs 36-68: per collection its key description and the
   summaries (name, key, policy, version) of its views; None = the panic at 50 *)
Definition view_summary (v : view_inst) : N * policy * N := (vi_key v, vi_policy v, vi_version v).
Definition collection_summary (c : N) (s : schematic) : option (N * list (N * (N * policy * N))) :=
  match key_description c s with
  | None => None
  | Some k => Some (k, fold_left (fun m v => hput (vi_name v) (view_summary v) m) (views_in_collection c s) [])
  end.
Definition summary (s : schematic) : list (N * option (N * list (N * (N * policy * N)))) :=
  map (fun c => (c, collection_summary c s)) (collections s).
