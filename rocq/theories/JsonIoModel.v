(** Model of the settings files: JsonIO.read_settings, with the overload
    resolution of the bindings of SetValue.
    Source: queso/python/scripts/json_io.py,
    queso/python/bindings/dictionary_binder_helper.hpp,
    external_libraries/pybind11 (2.10.0: cast.h, stl.h, pybind11.h).
    json.load is the parser of JsonSpec; Python values are JSON values, the
    numbers without fraction and exponent are the integers.  Not modelled: the
    NaN and Infinity literals json.load also accepts, repeated names in one
    object, the encoding of characters above 127, integers too large for
    float(). *)
From Coq Require Import String Ascii Bool NArith ZArith QArith Arith List.
From Coq Require Decimal.
From Verif Require Import KeysModel DictModel SettingsModel JsonModel JsonSpec.
Import ListNotations.
Local Open Scope nat_scope.

(** The std::string of a Python str (characters below 128). *)
Definition text_of (s : list N) : text := map ascii_of_N s.

(** int(text) for a JSON number without fraction and exponent. *)
Fixpoint uint_of (t : text) : Decimal.uint :=
  match t with
  | [] => Decimal.Nil
  | c :: r =>
      let u := uint_of r in
      match (code c - 48)%N with
      | 0 => Decimal.D0 u | 1 => Decimal.D1 u | 2 => Decimal.D2 u | 3 => Decimal.D3 u | 4 => Decimal.D4 u
      | 5 => Decimal.D5 u | 6 => Decimal.D6 u | 7 => Decimal.D7 u | 8 => Decimal.D8 u | _ => Decimal.D9 u
      end%N
  end.
Definition int_of (t : text) : Z :=
  match t with
  | c :: r => if Ascii.eqb c "-" then (- Z.of_N (N.of_uint (uint_of r)))%Z else Z.of_N (N.of_uint (uint_of t))
  | [] => 0%Z
  end.
Definition is_integer (t : text) : bool := forallb (fun c => negb (Ascii.eqb c "." || is_e c)) t.

Section Doubles.
Variable D : Type.
Variable of_int : Z -> D.
Variable dbl : Q -> D.
(** float(text) for the other JSON numbers. *)
Variable to_float : text -> D.
Notation dict := (dict D).
Notation input := (input D).

(** json.load: the Python number of a JSON number. *)
Definition number (t : text) : Z + D := if is_integer t then inl (int_of t) else inr (to_float t).

(** cast.h:120-203 for double: PyFloat_Check or, with conversion, PyFloat_AsDouble. *)
Definition load_double (convert : bool) (v : jv) : option D :=
  match v with
  | JNum t => match number t with inr d => Some d | inl z => if convert then Some (of_int z) else None end
  | JBool b => if convert then Some (of_int (if b then 1 else 0)%Z) else None
  | _ => None
  end.
(** cast.h:120-203 for std::size_t: a Python float is never accepted, an
    integer only in the range of the type (a bool is an int in Python). *)
Definition load_index (v : jv) : option N :=
  match v with
  | JNum t => match number t with
              | inl z => if ((0 <=? z) && (z <? 2 ^ 64))%Z then Some (Z.to_N z) else None
              | inr _ => None
              end
  | JBool b => Some (if b then 1 else 0)%N
  | _ => None
  end.
(** stl.h:220-237 for std::array<_, 3> (the elements of a str are no numbers). *)
Definition load_array {A} (f : jv -> option A) (v : jv) : option (A * A * A) :=
  match v with
  | JArr [x; y; z] => match f x, f y, f z with Some a, Some b, Some c => Some (a, b, c) | _, _, _ => None end
  | _ => None
  end.
(** cast.h:312-352: with conversion every object with __bool__ is accepted: None
    and all numbers (the case of a float never arises, see [overload]). *)
Definition load_bool (convert : bool) (v : jv) : option bool :=
  match v with
  | JBool b => Some b
  | JNull => if convert then Some false else None
  | JNum t => if convert then match number t with inl z => Some (negb (z =? 0)%Z) | inr _ => None end else None
  | _ => None
  end.
(** cast.h:381-403 *)
Definition load_string (v : jv) : option text := match v with JStr s => Some (text_of s) | _ => None end.

(** The overloads of SetValue in the order of their definition
    (dictionary_binder_helper.hpp:48-63) in one pass; the two overloads for
    enumerations accept no JSON value. *)
Definition overload (convert : bool) (v : jv) : option input :=
  match load_array (load_double convert) v with
  | Some (a, b, c) => Some (IPoint a b c)
  | None =>
  match load_array load_index v with
  | Some (a, b, c) => Some (IVec a b c)
  | None =>
  match load_bool convert v with
  | Some b => Some (IBool b)
  | None =>
  match load_double convert v with
  | Some d => Some (IDouble d)
  | None =>
  match load_index v with
  | Some n => Some (IIndex n)
  | None =>
  match load_string v with
  | Some s => Some (IString s)
  | None => None
  end end end end end end.
(** pybind11.h:702-957: first all overloads without conversion, then all with. *)
Definition argument (v : jv) : option input :=
  match overload false v with Some i => Some i | None => overload true v end.

(** A call whose exception leaves read_settings. *)
Definition set_input (d : dict) (n : text) (i : option input) : res dict :=
  match i with
  | None => Error                                                    (* TypeError *)
  | Some i => let '(d', r) := dict_set of_int d n i in bind r (fun _ => Ok d')
  end.

(** json_io.py:175-182 and :184-187 *)
Definition method_of (t : text) : option method :=
  if text_eqb t (lit "Gauss") then Some gauss
  else if text_eqb t (lit "Gauss_Reduced1") then Some gauss_reduced_1
  else if text_eqb t (lit "Gauss_Reduced2") then Some gauss_reduced_2
  else if text_eqb t (lit "GGQ_Optimal") then Some ggq_optimal
  else if text_eqb t (lit "GGQ_Reduced1") then Some ggq_reduced_1
  else if text_eqb t (lit "GGQ_Reduced2") then Some ggq_reduced_2
  else None.
Definition grid_of (t : text) : option grid_type :=
  if text_eqb t (lit "b_spline_grid") then Some b_spline_grid
  else if text_eqb t (lit "hexahedral_fe_grid") then Some hexahedral_fe_grid
  else None.

(** json_io.py:106-129 _set_value, with _get_enum (:132-157). *)
Definition read_scalar (d : dict) (n : text) (v : jv) : res dict :=
  match v with
  | JStr s => if text_eqb (text_of s) (lit "Not Set.") then Ok d
              else if text_eqb n (lit "integration_method") then
                match method_of (text_of s) with Some m => set_input d n (Some (IMethod m)) | None => Error end
              else if text_eqb n (lit "grid_type") then
                match grid_of (text_of s) with Some g => set_input d n (Some (IGrid g)) | None => Error end
              else set_input d n (argument v)
  | _ => if text_eqb n (lit "integration_method") || text_eqb n (lit "grid_type") then Error
         else set_input d n (argument v)
  end.


(** GetList by name, called only to check the key (json_io.py:82). *)
Definition has_list (d : dict) (n : text) : bool :=
  match d_lists d with
  | None => false
  | Some (ks, _) => match pget_key ks n with Some _ => true | None => false end
  end.

(** json_io.py:46-65 _read_dict with :67-85 _read_list and :87-102
    _read_conditions_settings_list.  An empty list has no value[0] (:81:
    IndexError); an item that is no object has no items() (AttributeError). *)
Fixpoint read_obj (v : jv) (d : dict) {struct v} : res dict :=
  match v with
  | JObj l =>
      (fix entries (l : list (list N * jv)) (d : dict) : res dict :=
         match l with
         | [] => Ok d
         | (name, w) :: l' =>
             let n := text_of name in
             bind (match w with
                   | JObj _ => bind (go d (Sub n)) (fun x => bind (read_obj w x) (fun x' => Ok (put d (Sub n) x')))
                   | JArr [] => Error
                   | JArr ((JObj _ :: _) as items) =>
                       if has_list d n then
                         (fix append (items : list jv) (d : dict) : res dict :=
                            match items with
                            | [] => Ok d
                            | i :: items' =>
                                bind create_condition_settings (fun c =>
                                bind (read_obj i c) (fun c' =>
                                let '(d', r) := dict_append d n (Some c') in bind r (fun _ => append items' d')))
                            end) items d
                       else Error
                   | JArr _ => set_input d n (argument w)
                   | _ => read_scalar d n w
                   end) (entries l')
         end) l d
  | _ => Error
  end.

(** json_io.py:27-44 read_settings: the contents of the file to settings. *)
Definition read_settings (t : text) : res dict :=
  match parse t with
  | None => Error
  | Some v => bind (create_settings dbl) (read_obj v)
  end.
End Doubles.
Arguments number {D} to_float t.
Arguments load_double {D} of_int to_float convert v.
Arguments load_index {D} to_float v.
Arguments load_bool {D} to_float convert v.
Arguments overload {D} of_int to_float convert v.
Arguments argument {D} of_int to_float v.
Arguments set_input {D} of_int d n i.
Arguments read_scalar {D} of_int to_float d n v.
Arguments has_list {D} d n.
Arguments read_obj {D} of_int to_float v d.
Arguments read_settings {D} of_int dbl to_float t.
