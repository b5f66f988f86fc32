(** Model of the output of a dictionary as text.
    Source: queso/containers/dictionary.hpp:336-401 (PrintInfo), :517-524
    (operator<<), queso/containers/data_set.hpp:91-105 (PrintValueVisit),
    :255-261 (PrintValue), queso/includes/core_definitions.hpp:100-145. *)
From Coq Require Import String Ascii Bool NArith ZArith Arith List Decimal DecimalN.
From Verif Require Import KeysModel DictModel.
Import ListNotations.
Local Open Scope nat_scope.

(** The newline character and the double quote. *)
Definition nl : text := ["010"%char].
Definition dq : text := [""""%char].

(** std::ostream << size_t. *)
Fixpoint show_uint (d : uint) : text :=
  match d with
  | Nil => []
  | D0 d => "0"%char :: show_uint d | D1 d => "1"%char :: show_uint d | D2 d => "2"%char :: show_uint d
  | D3 d => "3"%char :: show_uint d | D4 d => "4"%char :: show_uint d | D5 d => "5"%char :: show_uint d
  | D6 d => "6"%char :: show_uint d | D7 d => "7"%char :: show_uint d | D8 d => "8"%char :: show_uint d
  | D9 d => "9"%char :: show_uint d
  end.
Definition show_index (n : N) : text := show_uint (N.to_uint n).

(** core_definitions.hpp:100-117 and :136-145. *)
Definition show_method (m : method) : text :=
  match m with
  | gauss => lit "Gauss" | gauss_reduced_1 => lit "Gauss_Reduced1" | gauss_reduced_2 => lit "Gauss_Reduced2"
  | ggq_optimal => lit "GGQ_Optimal" | ggq_reduced_1 => lit "GGQ_Reduced1" | ggq_reduced_2 => lit "GGQ_Reduced2"
  end.
Definition show_grid (g : grid_type) : text :=
  match g with b_spline_grid => lit "b_spline_grid" | hexahedral_fe_grid => lit "hexahedral_fe_grid" end.

(** The loop over a key map: the text of every entry, followed by [last] after
    the last one and by [other] after the others. *)
Fixpoint print_entries (body : text -> key -> res text) (last other : text) (m : key_map) : res text :=
  match m with
  | [] => Ok []
  | (n, k) :: m' =>
      bind (body n k) (fun t => bind (print_entries body last other m') (fun r =>
        Ok (t ++ (match m' with [] => last | _ => other end) ++ r)))
  end.

(** The loop over a list of dictionaries (dictionary.hpp:384-393). *)
Fixpoint print_items (indent : text) (c : list (res text)) : res text :=
  match c with
  | [] => Ok []
  | r :: c' =>
      bind r (fun t => bind (print_items indent c') (fun u =>
        Ok (indent ++ lit "{" ++ nl ++ t ++ indent ++ (match c' with [] => lit "}" | _ => lit "}," end) ++ nl ++ u)))
  end.

Section Doubles.
Variable D : Type.
(** std::ostream << double with precision 10. *)
Variable show : D -> text.

(** data_set.hpp:91-105 *)
Definition print_value (v : value D) : text :=
  match v with
  | Unset => dq ++ lit "Not Set." ++ dq
  | VPoint a b c => lit "[" ++ show a ++ lit ", " ++ show b ++ lit ", " ++ show c ++ lit "]"
  | VVec a b c => lit "[" ++ show_index a ++ lit ", " ++ show_index b ++ lit ", " ++ show_index c ++ lit "]"
  | VIndex n => show_index n
  | VDouble d => show d
  | VString s => dq ++ s ++ dq
  | VBool b => if b then lit "true" else lit "false"
  | VMethod m => dq ++ show_method m ++ dq
  | VGrid g => dq ++ show_grid g ++ dq
  end.

(** data_set.hpp:255-261 *)
Definition print_entry (ds : dataset D) (k : key) : res text :=
  if negb (is_part_of (ds_keys ds) k) then Error
  else match nth_error (ds_data ds) (k_index k) with None => Undefined | Some v => Ok (print_value v) end.

(** dictionary.hpp:336-401.  The recursion is written with [map]: the texts of
    all sub-dictionaries are computed first, the loops then use them in the
    order of the key map. *)
Fixpoint print_info (indent : text) (d : dict D) {struct d} : res text :=
  match d with
  | Dict data subs lists =>
      let indent1 := indent ++ lit "    " in                                               (* :337 *)
      let n_subs := match subs with Some (_, l) => length l | None => 0 end in
      let n_lists := match lists with Some (_, l) => length l | None => 0 end in
      let n_items := n_subs + n_lists in                                                   (* :341 *)
      bind (match data with                                                                (* :344-354 *)
            | None => Ok []
            | Some ds =>
                print_entries (fun n k => bind (print_entry ds k) (fun v => Ok (indent1 ++ dq ++ n ++ dq ++ lit " : " ++ v)))
                  (if n_items =? 0 then nl else lit "," ++ nl) (lit "," ++ nl) (ks_map (ds_keys ds))
            end) (fun t1 =>
      bind (match subs with                                                                (* :357-373 *)
            | None => Ok []
            | Some (ks, l) =>
                let c := map (fun o => match o with None => Ok [] | Some x => print_info indent1 x end) l in
                print_entries (fun n k => match nth_error c (k_index k) with
                                          | None => Undefined
                                          | Some r => bind r (fun v => Ok (indent1 ++ dq ++ n ++ dq ++ lit " : {" ++ nl ++ v))
                                          end)
                  (indent1 ++ (if n_lists =? 0 then lit "}" else lit "},") ++ nl) (indent1 ++ lit "}," ++ nl) (ks_map ks)
            end) (fun t2 =>
      bind (match lists with                                                               (* :376-400 *)
            | None => Ok []
            | Some (ks, ll) =>
                let indent2 := indent1 ++ lit "    " in                                    (* :383 *)
                let c := map (fun l => print_items indent2
                                (map (fun o => match o with None => Undefined | Some x => print_info indent2 x end) l)) ll in
                print_entries (fun n k => match nth_error c (k_index k) with
                                          | None => Undefined
                                          | Some r => bind r (fun v => Ok (indent1 ++ dq ++ n ++ dq ++ lit " : [" ++ nl ++ v))
                                          end)
                  (indent1 ++ lit "]" ++ nl) (indent1 ++ lit "]," ++ nl) (ks_map ks)
            end) (fun t3 => Ok (t1 ++ t2 ++ t3))))
  end.

(** dictionary.hpp:517-524 *)
Definition print_dict (d : dict D) : res text :=
  bind (print_info [] d) (fun t => Ok (lit "{" ++ nl ++ t ++ lit "}")).

End Doubles.
Arguments print_value {D} show v.
Arguments print_entry {D} show ds k.
Arguments print_info {D} show indent d.
Arguments print_dict {D} show d.
