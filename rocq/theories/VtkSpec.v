(** Specification: a reader of legacy VTK files with an unstructured grid, after the description of the file format
    (text or big-endian binary, coordinates of 8 bytes, integers of 4 bytes).  Independent of the writer. *)
From Coq Require Import String Ascii Bool NArith Arith List.
Import ListNotations.
Local Open Scope nat_scope.

Definition chars (s : string) : list ascii := list_ascii_of_string s.
Definition blank (c : ascii) : bool := let n := N_of_ascii c in (n =? 32)%N || ((9 <=? n) && (n <=? 13))%N.
Fixpoint skip_blank (b : list ascii) : list ascii := match b with c :: b' => if blank c then skip_blank b' else b | [] => [] end.
(** The characters up to the next blank, and the rest from the blank on. *)
Fixpoint take_word (b : list ascii) : list ascii * list ascii :=
  match b with
  | [] => ([], [])
  | c :: b' => if blank c then ([], b) else let '(w, r) := take_word b' in (c :: w, r)
  end.
Definition next_word (b : list ascii) : option (list ascii * list ascii) :=
  match take_word (skip_blank b) with ([], _) => None | p => Some p end.
(** The characters up to the newline, and the rest after it. *)
Fixpoint take_line (b : list ascii) : option (list ascii * list ascii) :=
  match b with
  | [] => None
  | c :: b' => if Ascii.eqb c "010" then Some ([], b') else match take_line b' with Some (l, r) => Some (c :: l, r) | None => None end
  end.
Definition digit (c : ascii) : option N :=
  let n := N_of_ascii c in if ((48 <=? n) && (n <=? 57))%N then Some (n - 48)%N else None.
Fixpoint number_from (acc : N) (w : list ascii) : option N :=
  match w with [] => Some acc | c :: w' => match digit c with Some d => number_from (10 * acc + d) w' | None => None end end.
Definition number (w : list ascii) : option N := match w with [] => None | _ => number_from 0 w end.
Definition same (a b : list ascii) : bool := if list_eq_dec ascii_dec a b then true else false.

(** A line of a keyword and words; it ends with the newline that the data follow. *)
Fixpoint words (fuel : nat) (l : list ascii) : list (list ascii) :=
  match fuel with O => [] | S fuel => match next_word l with Some (w, r) => w :: words fuel r | None => [] end end.
Definition keyword_line (b : list ascii) : option (list (list ascii) * list ascii) :=
  match take_line (skip_blank b) with Some (l, r) => Some (words (S (length l)) l, r) | None => None end.

(** A number in a file: its text or its bits. *)
Inductive atom := Shown (t : list ascii) | Stored (n : N).
Fixpoint big_endian (acc : N) (b : list ascii) : N := match b with [] => acc | c :: b' => big_endian (256 * acc + N_of_ascii c) b' end.
Definition stored (w : nat) (b : list ascii) : option (N * list ascii) :=
  if (w <=? length b) then Some (big_endian 0 (firstn w b), skipn w b) else None.

Fixpoint many {A} (one : list ascii -> option (A * list ascii)) (n : nat) (b : list ascii) : option (list A * list ascii) :=
  match n with
  | O => Some ([], b)
  | S n' => match one b with
            | Some (a, r) => match many one n' r with Some (l, r') => Some (a :: l, r') | None => None end
            | None => None
            end
  end.
Definition real (binary : bool) (b : list ascii) : option (atom * list ascii) :=
  if binary then match stored 8 b with Some (n, r) => Some (Stored n, r) | None => None end
  else match next_word b with Some (w, r) => Some (Shown w, r) | None => None end.
Definition integer (binary : bool) (b : list ascii) : option (N * list ascii) :=
  if binary then stored 4 b
  else match next_word b with Some (w, r) => match number w with Some n => Some (n, r) | None => None end | None => None end.
Definition point (binary : bool) (b : list ascii) : option ((atom * atom * atom) * list ascii) :=
  match real binary b with Some (x, b) =>
  match real binary b with Some (y, b) =>
  match real binary b with Some (z, b) => Some ((x, y, z), b) | None => None end | None => None end | None => None end.
(** The cells: each is preceded by its number of points; they use up all the integers. *)
Fixpoint cells (n : nat) (l : list N) : option (list (list N)) :=
  match n with
  | O => match l with [] => Some [] | _ => None end
  | S n' => match l with
            | [] => None
            | k :: l' => if (N.to_nat k <=? length l') then
                match cells n' (skipn (N.to_nat k) l') with Some c => Some (firstn (N.to_nat k) l' :: c) | None => None end
              else None
            end
  end.

Record vtk := Vtk { v_points : list (atom * atom * atom); v_cells : list (list N); v_types : list N; v_scalars : option (list ascii * list atom) }.
Definition read_header (b : list ascii) : option (bool * list ascii) :=
  match take_line b with Some (l1, b) =>
  match take_line b with Some (_, b) =>
  match take_line b with Some (l3, b) =>
  match take_line b with Some (l4, b) =>
    if same l1 (chars "# vtk DataFile Version 4.1") && same l4 (chars "DATASET UNSTRUCTURED_GRID") then
      if same l3 (chars "BINARY") then Some (true, b) else if same l3 (chars "ASCII") then Some (false, b) else None
    else None
  | None => None end | None => None end | None => None end | None => None end.
Definition read_points (binary : bool) (b : list ascii) : option (list (atom * atom * atom) * list ascii) :=
  match keyword_line b with
  | Some ([k; n; t], b) => if same k (chars "POINTS") && same t (chars "double") then
      match number n with Some n => many (point binary) (N.to_nat n) b | None => None end else None
  | _ => None end.
Definition read_cells (binary : bool) (b : list ascii) : option (list (list N) * list ascii) :=
  match keyword_line b with
  | Some ([k; n; s], b) => if same k (chars "CELLS") then
      match number n, number s with
      | Some n, Some s => match many (integer binary) (N.to_nat s) b with
                          | Some (l, b) => match cells (N.to_nat n) l with Some c => Some (c, b) | None => None end
                          | None => None end
      | _, _ => None end else None
  | _ => None end.
Definition read_types (binary : bool) (b : list ascii) : option (list N * list ascii) :=
  match keyword_line b with
  | Some ([k; n], b) => if same k (chars "CELL_TYPES") then
      match number n with Some n => many (integer binary) (N.to_nat n) b | None => None end else None
  | _ => None end.
Definition read_scalars (binary : bool) (count : nat) (b : list ascii) : option (list ascii * list atom * list ascii) :=
  match keyword_line b with
  | Some ([k1; n], b) =>
    match keyword_line b with
    | Some ([k2; name; t; c], b) =>
      match keyword_line b with
      | Some ([k3; d], b) =>
        if same k1 (chars "POINT_DATA") && same k2 (chars "SCALARS") && same t (chars "double") && same c (chars "1")
           && same k3 (chars "LOOKUP_TABLE") && same d (chars "default") then
          match number n with
          | Some n => if (N.to_nat n =? count) then match many (real binary) (N.to_nat n) b with Some (l, b) => Some (name, l, b) | None => None end else None
          | None => None end
        else None
      | _ => None end
    | _ => None end
  | _ => None end.
(** The whole file: as many cell types as cells; nothing is left at the end. *)
Definition read_vtk (b : list ascii) : option vtk :=
  match read_header b with None => None | Some (binary, b) =>
  match read_points binary b with None => None | Some (ps, b) =>
  match read_cells binary b with None => None | Some (cs, b) =>
  match read_types binary b with None => None | Some (ts, b) =>
    if (length ts =? length cs) then
      match skip_blank b with
      | [] => Some (Vtk ps cs ts None)
      | _ => match read_scalars binary (length ps) b with
             | Some (name, l, b) => match skip_blank b with [] => Some (Vtk ps cs ts (Some (name, l))) | _ => None end
             | None => None end
      end
    else None
  end end end end.
