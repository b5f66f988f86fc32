(** Model of the key sets: how the comma separated declaration is split into
    names, and how the name -> key map is registered and checked.
    Source: queso/includes/keys.hpp, queso/includes/register_keys.hpp. *)
From Coq Require Import String Ascii Bool Arith List.
Import ListNotations.
Local Open Scope nat_scope.

(** A character sequence (std::string, std::string_view). *)
Definition text := list ascii.
Definition lit (s : string) : text := list_ascii_of_string s.

(** std::string_view comparison. *)
Definition text_eqb (a b : text) : bool := if list_eq_dec ascii_dec a b then true else false.

(** keys.hpp:43-49 NumberOfItemsDelimitedByComma. *)
Definition count_items (s : text) : nat :=
  fold_left (fun c a => if Ascii.eqb a "," then S c else c) s 1.

(** keys.hpp:62: the characters that restart a name. *)
Definition is_blank (c : ascii) : bool := Ascii.eqb c " " || Ascii.eqb c "009".

(** keys.hpp:55-71 CreateConstexprStringArray, the loop over i = 0..size.
    [n] is the number of iterations left; [nth i s zero] is StrView.data()[i],
    which is the terminating NUL for i = size (the argument is always a string
    literal); the std::array result is the list of the substrings added. *)
Fixpoint split_loop (n i start : nat) (s : text) : list text :=
  match n with
  | 0 => []
  | S n' =>
      let c := nth i s zero in
      if is_blank c then split_loop n' (S i) (S i) s
      else if (i =? length s) || Ascii.eqb c "," then
        firstn (i - start) (skipn start s) :: split_loop n' (S i) (S i) s
      else split_loop n' (S i) start s
  end.
Definition split_names (s : text) : list text := split_loop (S (length s)) 0 0 s.

(** register_keys.hpp:24-25 the possible value types (MainValueTypeList). *)
Inductive ty := TPoint | TVec | TBool | TDouble | TIndex | TString | TMethod | TGrid.
Definition ty_eqb (a b : ty) : bool :=
  match a, b with
  | TPoint, TPoint | TVec, TVec | TBool, TBool | TDouble, TDouble
  | TIndex, TIndex | TString, TString | TMethod, TMethod | TGrid, TGrid => true
  | _, _ => false
  end.

(** keys.hpp:179-255 DynamicKey: the key set it belongs to (KeySetInfoTypeIndex,
    here a number), its index (the enum value), its name (the entry of
    msEnumNames), the type of the value it leads to ([None] for keys leading to
    sub-dictionaries or lists) and whether the value is required. *)
Record key := { k_set : nat; k_index : nat; k_name : text; k_type : option ty; k_req : bool }.

(** keys.hpp:297 StringToKeyMapType, an unordered map: an association list in
    iteration order.  The iteration order of the C++ map is unspecified; every
    theorem quantifies over the map, so over every order. *)
Definition key_map := list (text * key).

(** std::unordered_map::find. *)
Definition find_key (m : key_map) (n : text) : option key :=
  match find (fun e => text_eqb (fst e) n) m with Some e => Some (snd e) | None => None end.

(** Construction of the map from an initializer list (keys.hpp:494-496): an
    entry whose name is already present is not inserted. *)
Definition insert_key (m : key_map) (e : text * key) : key_map :=
  match find_key m (fst e) with Some _ => m | None => m ++ [e] end.
Definition make_map (l : list (text * key)) : key_map := fold_left insert_key l [].

(** keys.hpp:466-478 InitializeStringToKeyMap: [None] stands for the error. *)
Definition initialize_map (names : list text) (m : key_map) : option key_map :=
  if negb (length m =? length names) then None
  else if forallb (fun n => match find_key m n with Some _ => true | None => false end) names
  then Some m else None.

(** keys.hpp:364-409: the run-time information of a key set: its type index,
    msEnumNames and msStringToKeyMap. *)
Record keyset := { ks_id : nat; ks_names : list text; ks_map : key_map }.

(** keys.hpp:372-378 pGetKey. *)
Definition pget_key (ks : keyset) (n : text) : option key := find_key (ks_map ks) n.

(** keys.hpp:382-384 GetNumberOfKeys (msNumOfEnums, the size of msEnumNames). *)
Definition num_keys (ks : keyset) : nat := length (ks_names ks).

(** keys.hpp:385-390 IsPartOfKeySet. *)
Definition is_part_of (ks : keyset) (k : key) : bool := Nat.eqb (ks_id ks) (k_set k).

(** One use of QuESo_DEFINE_KEY_TO_VALUE / QuESo_DEFINE_KEY_TO_OBJECT
    (keys.hpp:425-455): the enum value, the target and the requirement. *)
Definition definition := (nat * option ty * bool)%type.
Definition define_key (id : nat) (names : list text) (d : definition) : key :=
  let '(i, t, r) := d in {| k_set := id; k_index := i; k_name := nth i names []; k_type := t; k_req := r |}.

(** QuESo_KEY (keys.hpp:487): the map entry of a key. *)
Definition key_entry (k : key) : text * key := (k_name k, k).

(** QuESo_DEFINE_KEY_SET + QuESo_REGISTER_KEY_SET (keys.hpp:364-409, 494-496):
    the declaration string and the registered keys. *)
Definition register (id : nat) (decl : text) (ks : list key) : option keyset :=
  let names := split_names decl in
  match initialize_map names (make_map (map key_entry ks)) with
  | Some m => Some {| ks_id := id; ks_names := names; ks_map := m |}
  | None => None
  end.
