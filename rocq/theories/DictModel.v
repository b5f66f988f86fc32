(** Model of DataSet and Dictionary (release build, QuESo_ASSERT disabled).
    Source: queso/containers/data_set.hpp, queso/containers/dictionary.hpp. *)
From Coq Require Import String Ascii Bool NArith ZArith Arith List.
From Verif Require Import KeysModel.
Import ListNotations.
Local Open Scope nat_scope.

(** core_definitions.hpp:98 and :134. *)
Inductive method := gauss | gauss_reduced_1 | gauss_reduced_2 | ggq_optimal | ggq_reduced_1 | ggq_reduced_2.
Inductive grid_type := b_spline_grid | hexahedral_fe_grid.

(** Result of a call: normal return, a thrown exception, std::terminate (an
    exception leaving a noexcept function), or undefined behaviour. *)
Inductive res (A : Type) := Ok (a : A) | Error | Abort | Undefined.
Arguments Ok {A} a.
Arguments Error {A}.
Arguments Abort {A}.
Arguments Undefined {A}.
Definition bind {A B} (r : res A) (f : A -> res B) : res B :=
  match r with Ok a => f a | Error => Error | Abort => Abort | Undefined => Undefined end.

(** [l[i] = x] for a std::vector; [None] is an out-of-range index. *)
Fixpoint set_nth {A} (i : nat) (x : A) (l : list A) {struct l} : option (list A) :=
  match l, i with
  | [], _ => None
  | _ :: l', 0 => Some (x :: l')
  | y :: l', S i' => match set_nth i' x l' with Some l'' => Some (y :: l'') | None => None end
  end.

Section Doubles.
(** The type of the C++ doubles and the conversion of integers to it. *)
Variable D : Type.
Variable of_int : Z -> D.

(** data_set.hpp: VariantValueType = std::variant<std::monostate, ...>
    (keys.hpp:106, register_keys.hpp:24-25). *)
Inductive value :=
| Unset
| VPoint (a b c : D) | VVec (a b c : N) | VBool (b : bool) | VDouble (d : D) | VIndex (n : N)
| VString (s : text) | VMethod (m : method) | VGrid (g : grid_type).

(** std::variant::index / holds_alternative: the type of the alternative held. *)
Definition held (v : value) : option ty :=
  match v with
  | Unset => None
  | VPoint _ _ _ => Some TPoint | VVec _ _ _ => Some TVec | VBool _ => Some TBool
  | VDouble _ => Some TDouble | VIndex _ => Some TIndex | VString _ => Some TString
  | VMethod _ => Some TMethod | VGrid _ => Some TGrid
  end.

(** The argument of SetValue by name, with its static type TValueType: a value
    type of the list or a signed integer ([IInt]). *)
Inductive input :=
| IPoint (a b c : D) | IVec (a b c : N) | IBool (b : bool) | IDouble (d : D) | IIndex (n : N)
| IInt (z : Z) | IString (s : text) | IMethod (m : method) | IGrid (g : grid_type).

(** data_set.hpp:371-372.  mCheckedRequired (:373) is only read by assertions. *)
Record dataset := { ds_keys : keyset; ds_data : list value }.

(** data_set.hpp:124-129 constructor. *)
Definition new_dataset (ks : keyset) : dataset := {| ds_keys := ks; ds_data := repeat Unset (num_keys ks) |}.

(** mData[i] = v (an out-of-range index is undefined behaviour). *)
Definition store (ds : dataset) (i : nat) (v : value) : dataset * res unit :=
  match set_nth i v (ds_data ds) with
  | Some l => ({| ds_keys := ds_keys ds; ds_data := l |}, Ok tt)
  | None => (ds, Undefined)
  end.

(** std::type_index(typeid(T)) == target. *)
Definition target_is (k : key) (t : ty) : bool :=
  match k_type k with Some t' => ty_eqb t' t | None => false end.

(** data_set.hpp:278-328 SetValue by name; the first component is the data set
    after the call, also when it throws. *)
Definition set_value (ds : dataset) (n : text) (v : input) : dataset * res unit :=
  match pget_key (ds_keys ds) n with
  | None => (ds, Error)                                                          (* :281 *)
  | Some k =>
      let i := k_index k in
      match v with
      | IIndex x =>                                                              (* :287-302, unsigned *)
          if target_is k TDouble then store ds i (VDouble (of_int (Z.of_N x)))
          else if target_is k TIndex then store ds i (VIndex x)
          else (ds, Error)
      | IInt x =>                                                                (* :287-302, signed *)
          if target_is k TDouble then store ds i (VDouble (of_int x))
          else if target_is k TIndex then
            if (x <? 0)%Z then (ds, Error) else store ds i (VIndex (Z.to_N x))
          else (ds, Error)
      | IVec a b c =>                                                            (* :304-318 *)
          if target_is k TPoint then
            store ds i (VPoint (of_int (Z.of_N a)) (of_int (Z.of_N b)) (of_int (Z.of_N c)))
          else if target_is k TVec then store ds i (VVec a b c)
          else (ds, Error)
      | IPoint a b c => if target_is k TPoint then store ds i (VPoint a b c) else (ds, Error) (* :321 *)
      | IBool b => if target_is k TBool then store ds i (VBool b) else (ds, Error)
      | IDouble d => if target_is k TDouble then store ds i (VDouble d) else (ds, Error)
      | IString s => if target_is k TString then store ds i (VString s) else (ds, Error)
      | IMethod m => if target_is k TMethod then store ds i (VMethod m) else (ds, Error)
      | IGrid g => if target_is k TGrid then store ds i (VGrid g) else (ds, Error)
      end
  end.

(** data_set.hpp:336-344 GetValue<T> by name.  std::get throws
    bad_variant_access if another alternative is held. *)
Definition get_value (t : ty) (ds : dataset) (n : text) : res value :=
  match pget_key (ds_keys ds) n with
  | None => Error
  | Some k =>
      match nth_error (ds_data ds) (k_index k) with
      | None => Undefined
      | Some v =>
          match held v with
          | None => Error                                                        (* :341 *)
          | Some t' => if ty_eqb t' t then Ok v else Error                       (* :343 *)
          end
      end
  end.

(** data_set.hpp:351-357 IsSet by name. *)
Definition is_set (ds : dataset) (n : text) : res bool :=
  match pget_key (ds_keys ds) n with
  | None => Error
  | Some k =>
      match nth_error (ds_data ds) (k_index k) with
      | None => Undefined
      | Some v => Ok (match held v with None => false | Some _ => true end)
      end
  end.

(** data_set.hpp:363-365 Has. *)
Definition has (ds : dataset) (n : text) : bool :=
  match pget_key (ds_keys ds) n with Some _ => true | None => false end.

(** data_set.hpp:152-169 SetValue by compile-time key.  The static assertions
    (:156-158) say that the value has the type of the key. *)
Definition set_by_key (ds : dataset) (k : key) (v : value) : dataset * res unit := store ds (k_index k) v.

(** data_set.hpp:179-192 GetRequiredValue by compile-time key (noexcept: a
    bad_variant_access terminates the program). *)
Definition get_required (t : ty) (ds : dataset) (k : key) : res value :=
  match nth_error (ds_data ds) (k_index k) with
  | None => Undefined
  | Some v => match held v with Some t' => if ty_eqb t' t then Ok v else Abort | None => Abort end
  end.

(** data_set.hpp:202-217 TryGetValue by compile-time key. *)
Definition try_get (t : ty) (ds : dataset) (k : key) : res (option value) :=
  match nth_error (ds_data ds) (k_index k) with
  | None => Undefined
  | Some v => match held v with
              | None => Ok None
              | Some t' => if ty_eqb t' t then Ok (Some v) else Abort
              end
  end.

(** data_set.hpp:236-245 CheckRequired: the loop over the key map. *)
Fixpoint check_values (m : key_map) (data : list value) : res unit :=
  match m with
  | [] => Ok tt
  | (_, k) :: m' =>
      if k_req k then
        match nth_error data (k_index k) with
        | None => Undefined
        | Some v => match held v with None => Error | Some _ => check_values m' data end
        end
      else check_values m' data
  end.
Definition check_dataset (ds : dataset) : res unit := check_values (ks_map (ds_keys ds)) (ds_data ds).

(** dictionary.hpp:501-510: the members.  A Unique<Dictionary> that is null is
    [None]; an absent key set (EmptyKeySetType) is [None]. *)
Inductive dict := Dict
  (data : option dataset)
  (subs : option (keyset * list (option dict)))
  (lists : option (keyset * list (list (option dict)))).

Definition d_data (d : dict) := let '(Dict a _ _) := d in a.
Definition d_subs (d : dict) := let '(Dict _ b _) := d in b.
Definition d_lists (d : dict) := let '(Dict _ _ c) := d in c.

(** dictionary.hpp:116-135 constructor. *)
Definition new_dict (v s l : option keyset) : dict :=
  Dict (match v with Some ks => Some (new_dataset ks) | None => None end)
       (match s with Some ks => Some (ks, repeat None (num_keys ks)) | None => None end)
       (match l with Some ks => Some (ks, repeat [] (num_keys ks)) | None => None end).

(** The loops over a key map that stop at the first exception; [c] holds the
    result of the loop body for every index. *)
Fixpoint run_keys (m : key_map) (c : list (res unit)) : res unit :=
  match m with
  | [] => Ok tt
  | (_, k) :: m' => match nth_error c (k_index k) with
                    | None => Undefined
                    | Some r => bind r (fun _ => run_keys m' c)
                    end
  end.
Fixpoint run_all (c : list (res unit)) : res unit :=
  match c with [] => Ok tt | r :: c' => bind r (fun _ => run_all c') end.

(** dictionary.hpp:289-316 CheckRequired.  The recursion is written with [map]
    (the loop body is evaluated for all entries, the loops then use the
    results in the order of the key map and stop at the first error). *)
Fixpoint check_required (d : dict) : res unit :=
  let entry := fun o => match o with None => Error | Some d' => check_required d' end in
  match d with
  | Dict data subs lists =>
      bind (match data with Some ds => check_dataset ds | None => Ok tt end) (fun _ =>
      bind (match subs with Some (ks, l) => run_keys (ks_map ks) (map entry l) | None => Ok tt end) (fun _ =>
      match lists with Some (ks, ll) => run_keys (ks_map ks) (map (fun l => run_all (map entry l)) ll) | None => Ok tt end))
  end.

(** A navigation step: operator[] by name (dictionary.hpp:427-441) or an entry
    of GetList by name (:446-457), with the index used by the Python bindings
    (add_dictionary_to_python.cpp:56-57). *)
Inductive step := Sub (n : text) | Item (n : text) (i : nat).

Definition go (d : dict) (s : step) : res dict :=
  match s with
  | Sub n =>
      match d_subs d with
      | None => Error
      | Some (ks, l) =>
          match pget_key ks n with
          | None => Error
          | Some k => match nth_error l (k_index k) with
                      | None => Undefined
                      | Some None => Error
                      | Some (Some d') => Ok d'
                      end
          end
      end
  | Item n i =>
      match d_lists d with
      | None => Error
      | Some (ks, ll) =>
          match pget_key ks n with
          | None => Error
          | Some k => match nth_error ll (k_index k) with
                      | None => Undefined
                      | Some l => match nth_error l i with Some (Some d') => Ok d' | _ => Undefined end
                      end
          end
      end
  end.
Fixpoint walk (d : dict) (p : list step) : res dict :=
  match p with [] => Ok d | s :: p' => bind (go d s) (fun d' => walk d' p') end.

(** dictionary.hpp:464-467 SetValue by name. *)
Definition dict_set (d : dict) (n : text) (v : input) : dict * res unit :=
  match d with
  | Dict None _ _ => (d, Error)
  | Dict (Some ds) s l => let '(ds', r) := set_value ds n v in (Dict (Some ds') s l, r)
  end.

(** dictionary.hpp:474-477 GetValue by name. *)
Definition dict_get (t : ty) (d : dict) (n : text) : res value :=
  match d_data d with None => Error | Some ds => get_value t ds n end.

(** dictionary.hpp:482-485 IsSet by name. *)
Definition dict_is_set (d : dict) (n : text) : res bool :=
  match d_data d with None => Error | Some ds => is_set ds n end.

(** dictionary.hpp:490-495 Has. *)
Definition dict_has (d : dict) (n : text) : bool :=
  match d with
  | Dict data s l =>
      (match data with Some ds => has ds n | None => false end)
      || (match s with Some (ks, _) => match pget_key ks n with Some _ => true | None => false end | None => false end)
      || (match l with Some (ks, _) => match pget_key ks n with Some _ => true | None => false end | None => false end)
  end.

(** dictionary.hpp:411-422 SetSubDictionary by name. *)
Definition dict_set_sub (d : dict) (n : text) (x : option dict) : dict * res unit :=
  match d with
  | Dict _ None _ => (d, Error)
  | Dict v (Some (ks, l)) ll =>
      match pget_key ks n with
      | None => (d, Error)
      | Some k => match set_nth (k_index k) x l with
                  | None => (d, Undefined)
                  | Some l' => (Dict v (Some (ks, l')) ll, Ok tt)
                  end
      end
  end.

(** GetList by name (dictionary.hpp:446-457) followed by push_back
    (add_dictionary_to_python.cpp:62-64). *)
Definition dict_append (d : dict) (n : text) (x : option dict) : dict * res unit :=
  match d with
  | Dict _ _ None => (d, Error)
  | Dict v s (Some (ks, ll)) =>
      match pget_key ks n with
      | None => (d, Error)
      | Some k => match nth_error ll (k_index k) with
                  | None => (d, Undefined)
                  | Some l => match set_nth (k_index k) (l ++ [x]) ll with
                              | None => (d, Undefined)
                              | Some ll' => (Dict v s (Some (ks, ll')), Ok tt)
                              end
                  end
      end
  end.

(** An operation on the dictionary reached by a path; the dictionaries above
    it are changed in place. *)
Inductive action :=
| SetVal (n : text) (v : input)
| SetSub (n : text) (x : option dict)
| Append (n : text) (x : option dict).
Definition act (d : dict) (a : action) : dict * res unit :=
  match a with
  | SetVal n v => dict_set d n v
  | SetSub n x => dict_set_sub d n x
  | Append n x => dict_append d n x
  end.

(** The dictionary with the entry reached by one step replaced. *)
Definition put (d : dict) (s : step) (x : dict) : dict :=
  match s with
  | Sub n =>
      match d_subs d with
      | None => d
      | Some (ks, l) =>
          match pget_key ks n with
          | None => d
          | Some k => match set_nth (k_index k) (Some x) l with
                      | Some l' => Dict (d_data d) (Some (ks, l')) (d_lists d)
                      | None => d
                      end
          end
      end
  | Item n i =>
      match d_lists d with
      | None => d
      | Some (ks, ll) =>
          match pget_key ks n with
          | None => d
          | Some k =>
              match nth_error ll (k_index k) with
              | None => d
              | Some l => match set_nth i (Some x) l with
                          | Some l' => match set_nth (k_index k) l' ll with
                                       | Some ll' => Dict (d_data d) (d_subs d) (Some (ks, ll'))
                                       | None => d
                                       end
                          | None => d
                          end
              end
          end
      end
  end.
Fixpoint act_at (d : dict) (p : list step) (a : action) : dict * res unit :=
  match p with
  | [] => act d a
  | s :: p' => match go d s with
               | Ok d' => let '(d'', r) := act_at d' p' a in (put d s d'', r)
               | Error => (d, Error)
               | Abort => (d, Abort)
               | Undefined => (d, Undefined)
               end
  end.
(** A history of operations; exceptions are caught by the caller (Python). *)
Definition run (d : dict) (ops : list (list step * action)) : dict :=
  fold_left (fun d op => fst (act_at d (fst op) (snd op))) ops d.

End Doubles.

Arguments Unset {D}.
Arguments VPoint {D} a b c.
Arguments VVec {D} a b c.
Arguments VBool {D} b.
Arguments VDouble {D} d.
Arguments VIndex {D} n.
Arguments VString {D} s.
Arguments VMethod {D} m.
Arguments VGrid {D} g.
Arguments held {D} v.
Arguments IPoint {D} a b c.
Arguments IVec {D} a b c.
Arguments IBool {D} b.
Arguments IDouble {D} d.
Arguments IIndex {D} n.
Arguments IInt {D} z.
Arguments IString {D} s.
Arguments IMethod {D} m.
Arguments IGrid {D} g.
Arguments ds_keys {D} d.
Arguments ds_data {D} d.
Arguments new_dataset {D} ks.
Arguments store {D} ds i v.
Arguments set_value {D} of_int ds n v.
Arguments get_value {D} t ds n.
Arguments is_set {D} ds n.
Arguments has {D} ds n.
Arguments set_by_key {D} ds k v.
Arguments get_required {D} t ds k.
Arguments try_get {D} t ds k.
Arguments check_values {D} m data.
Arguments check_dataset {D} ds.
Arguments Dict {D} data subs lists.
Arguments d_data {D} d.
Arguments d_subs {D} d.
Arguments d_lists {D} d.
Arguments new_dict {D} v s l.
Arguments check_required {D} d.
Arguments go {D} d s.
Arguments walk {D} d p.
Arguments dict_set {D} of_int d n v.
Arguments dict_get {D} t d n.
Arguments dict_is_set {D} d n.
Arguments dict_has {D} d n.
Arguments dict_set_sub {D} d n x.
Arguments dict_append {D} d n x.
Arguments SetVal {D} n v.
Arguments SetSub {D} n x.
Arguments Append {D} n x.
Arguments act {D} of_int d a.
Arguments put {D} d s x.
Arguments act_at {D} of_int d p a.
Arguments run {D} of_int d ops.
