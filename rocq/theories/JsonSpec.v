(** JSON (RFC 8259): values, grammar and a parser that is complete for the
    grammar.  Nothing here depends on the model.  Bytes above 127 are taken as
    characters (the encoding is not checked). *)
From Coq Require Import String Ascii Bool NArith Arith List Lia.
Import ListNotations.
Local Open Scope nat_scope.

Definition str := list ascii.

(** Values; the characters of strings are code units, numbers are kept as text. *)
Inductive jv :=
| JNull | JBool (b : bool) | JNum (t : str) | JStr (s : list N)
| JArr (l : list jv) | JObj (l : list (list N * jv)).

Definition code (c : ascii) : N := N_of_ascii c.
Definition is_ws (c : ascii) : bool :=
  match code c with 32%N | 9%N | 10%N | 13%N => true | _ => false end.
Definition ws (t : str) : Prop := forallb is_ws t = true.

Definition is_digit (c : ascii) : bool := (48 <=? code c)%N && (code c <=? 57)%N.
Definition is_e (c : ascii) : bool := Ascii.eqb c "e" || Ascii.eqb c "E".

(** number = [ minus ] int [ frac ] [ exp ] *)
Fixpoint digits (t : str) : str := match t with c :: r => if is_digit c then digits r else t | [] => [] end.
Definition digits1 (t : str) : option str := match t with c :: r => if is_digit c then Some (digits r) else None | [] => None end.
Definition p_sign (t : str) : str := match t with c :: r => if Ascii.eqb c "-" then r else t | [] => [] end.
Definition p_int (t : str) : option str :=
  match t with c :: r => if Ascii.eqb c "0" then Some r else digits1 t | [] => None end.
Definition p_frac (t : str) : option str :=
  match t with c :: r => if Ascii.eqb c "." then digits1 r else Some t | [] => Some [] end.
Definition p_exp (t : str) : option str :=
  match t with
  | c :: r => if is_e c then
                match r with
                | s :: r' => if Ascii.eqb s "+" || Ascii.eqb s "-" then digits1 r' else digits1 r
                | [] => None
                end
              else Some t
  | [] => Some []
  end.
Definition is_number (t : str) : bool :=
  match p_int (p_sign t) with
  | Some r => match p_frac r with
              | Some r' => match p_exp r' with Some [] => true | _ => false end
              | None => false
              end
  | None => false
  end.
Definition number_char (c : ascii) : bool :=
  is_digit c || Ascii.eqb c "-" || Ascii.eqb c "+" || Ascii.eqb c "." || is_e c.

(** string characters: unescaped, two-character escapes, \uXXXX *)
Definition unescaped (c : ascii) : bool :=
  (32 <=? code c)%N && negb (Ascii.eqb c """") && negb (Ascii.eqb c "\").
Definition escape (c : ascii) : option N :=
  match code c with
  | 34 => Some 34 | 92 => Some 92 | 47 => Some 47 | 98 => Some 8 | 102 => Some 12
  | 110 => Some 10 | 114 => Some 13 | 116 => Some 9 | _ => None
  end%N.
Definition hex (c : ascii) : option N :=
  let n := code c in
  if is_digit c then Some (n - 48)%N
  else if ((65 <=? n) && (n <=? 70))%N then Some (n - 55)%N
  else if ((97 <=? n) && (n <=? 102))%N then Some (n - 87)%N else None.

Inductive chars : list N -> str -> Prop :=
| ch_nil : chars [] []
| ch_char c s t : unescaped c = true -> chars s t -> chars (code c :: s) (c :: t)
| ch_escape c n s t : escape c = Some n -> chars s t -> chars (n :: s) ("\"%char :: c :: t)
| ch_u a b c d i j k l s t : hex a = Some i -> hex b = Some j -> hex c = Some k -> hex d = Some l -> chars s t ->
    chars (((i * 16 + j) * 16 + k) * 16 + l :: s)%N ("\"%char :: "u"%char :: a :: b :: c :: d :: t).

(** the grammar *)
Inductive derives : jv -> str -> Prop :=
| d_null : derives JNull ["n"; "u"; "l"; "l"]%char
| d_true : derives (JBool true) ["t"; "r"; "u"; "e"]%char
| d_false : derives (JBool false) ["f"; "a"; "l"; "s"; "e"]%char
| d_num t : is_number t = true -> derives (JNum t) t
| d_str s t : chars s t -> derives (JStr s) (""""%char :: t ++ [""""%char])
| d_obj0 w : ws w -> derives (JObj []) ("{"%char :: w ++ ["}"%char])
| d_obj l t : members l t -> derives (JObj l) ("{"%char :: t ++ ["}"%char])
| d_arr0 w : ws w -> derives (JArr []) ("["%char :: w ++ ["]"%char])
| d_arr l t : elements l t -> derives (JArr l) ("["%char :: t ++ ["]"%char])
with members : list (list N * jv) -> str -> Prop :=
| m_one f t : member f t -> members [f] t
| m_cons f l t u : member f t -> members l u -> members (f :: l) (t ++ ","%char :: u)
with member : list N * jv -> str -> Prop :=
| m_field n v w1 k w2 w3 t w4 : ws w1 -> chars n k -> ws w2 -> ws w3 -> derives v t -> ws w4 ->
    member (n, v) (w1 ++ """"%char :: k ++ """"%char :: w2 ++ ":"%char :: w3 ++ t ++ w4)
with elements : list jv -> str -> Prop :=
| e_one v w1 t w2 : ws w1 -> derives v t -> ws w2 -> elements [v] (w1 ++ t ++ w2)
| e_cons v l w1 t w2 u : ws w1 -> derives v t -> ws w2 -> elements l u ->
    elements (v :: l) (w1 ++ t ++ w2 ++ ","%char :: u).

(** a document *)
Definition json (v : jv) (t : str) : Prop := exists w1 u w2, ws w1 /\ derives v u /\ ws w2 /\ t = w1 ++ u ++ w2.

(** a parser *)
Fixpoint skip (t : str) : str := match t with c :: r => if is_ws c then skip r else t | [] => [] end.
Fixpoint p_chars (t : str) : option (list N * str) :=
  match t with
  | [] => None
  | c :: r =>
      if Ascii.eqb c """" then Some ([], r)
      else if Ascii.eqb c "\" then
        match r with
        | [] => None
        | e :: r' =>
            if Ascii.eqb e "u" then
              match r' with
              | a :: b :: c' :: d :: r'' =>
                  match hex a, hex b, hex c', hex d with
                  | Some i, Some j, Some k, Some l =>
                      match p_chars r'' with Some (s, x) => Some (((i * 16 + j) * 16 + k) * 16 + l :: s, x)%N | None => None end
                  | _, _, _, _ => None
                  end
              | _ => None
              end
            else match escape e with
                 | Some n => match p_chars r' with Some (s, x) => Some (n :: s, x) | None => None end
                 | None => None
                 end
        end
      else if unescaped c then
        match p_chars r with Some (s, x) => Some (code c :: s, x) | None => None end
      else None
  end.
Fixpoint p_number (t : str) : str * str :=
  match t with
  | c :: r => if number_char c then let '(a, b) := p_number r in (c :: a, b) else ([], t)
  | [] => ([], [])
  end.
Fixpoint strip (w t : str) : option str :=
  match w, t with
  | [], _ => Some t
  | a :: w', b :: t' => if Ascii.eqb a b then strip w' t' else None
  | _, [] => None
  end.

Fixpoint p_value (fuel : nat) (t : str) {struct fuel} : option (jv * str) :=
  match fuel with
  | 0 => None
  | S f =>
      match t with
      | [] => None
      | c :: r =>
          if Ascii.eqb c """" then match p_chars r with Some (s, x) => Some (JStr s, x) | None => None end
          else if Ascii.eqb c "{" then
            match strip ["}"%char] (skip r) with
            | Some x => Some (JObj [], x)
            | None => match p_members f r with Some (l, x) => Some (JObj l, x) | None => None end
            end
          else if Ascii.eqb c "[" then
            match strip ["]"%char] (skip r) with
            | Some x => Some (JArr [], x)
            | None => match p_elements f r with Some (l, x) => Some (JArr l, x) | None => None end
            end
          else if Ascii.eqb c "n" then option_map (pair JNull) (strip ["u"; "l"; "l"]%char r)
          else if Ascii.eqb c "t" then option_map (pair (JBool true)) (strip ["r"; "u"; "e"]%char r)
          else if Ascii.eqb c "f" then option_map (pair (JBool false)) (strip ["a"; "l"; "s"; "e"]%char r)
          else let '(a, x) := p_number t in if is_number a then Some (JNum a, x) else None
      end
  end
with p_members (fuel : nat) (t : str) {struct fuel} : option (list (list N * jv) * str) :=
  match fuel with
  | 0 => None
  | S f =>
      match strip [""""%char] (skip t) with
      | None => None
      | Some r =>
          match p_chars r with
          | None => None
          | Some (n, r) =>
              match strip [":"%char] (skip r) with
              | None => None
              | Some r =>
                  match p_value f (skip r) with
                  | None => None
                  | Some (v, r) =>
                      match skip r with
                      | c :: x => if Ascii.eqb c "," then
                                    match p_members f x with Some (l, y) => Some ((n, v) :: l, y) | None => None end
                                  else if Ascii.eqb c "}" then Some ([(n, v)], x) else None
                      | [] => None
                      end
                  end
              end
          end
      end
  end
with p_elements (fuel : nat) (t : str) {struct fuel} : option (list jv * str) :=
  match fuel with
  | 0 => None
  | S f =>
      match p_value f (skip t) with
      | None => None
      | Some (v, r) =>
          match skip r with
          | c :: x => if Ascii.eqb c "," then
                        match p_elements f x with Some (l, y) => Some (v :: l, y) | None => None end
                      else if Ascii.eqb c "]" then Some ([v], x) else None
          | [] => None
          end
      end
  end.
Definition parse (t : str) : option jv :=
  match p_value (length t) (skip t) with
  | Some (v, r) => match skip r with [] => Some v | _ => None end
  | None => None
  end.
