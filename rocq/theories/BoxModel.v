(** Model of the grouping of the untrimmed elements into boxes for the generalized Gauss quadrature (GGQ) rules.
    Source: /repo/queso/quadrature/multiple_elements.hpp.
    Simplifications (whole file): an element is its cell index (id - 1); [U i] says whether the element with id i+1
    exists and is untrimmed (pGetElement<untrimmed>); the values neighbor_coefficient and is_visited stored in the
    elements are functions of the cell; coefficients are exact rationals (double in the C++, 0.9 is 9/10). *)
From Coq Require Import Arith List Bool QArith Qabs.
From Verif Require Import GridModel FloodModel.
Import ListNotations.
Local Open Scope nat_scope.

(** ZEROTOL, includes/define.hpp *)
Definition zerotol : Q := 1 # 100000000000000.

Section Boxes.
Variable g : grid.
Variable U : nat -> bool.

(** the elements returned by GetElements<untrimmed>, multiple_elements.hpp:65 (in the order of the ids; the actual
    order is the creation order and is irrelevant for the queue). *)
Definition untrimmed : list nat := List.filter U (seq 0 (num_elements g)).

(** LinearFunction, multiple_elements.hpp:316-325. None: QuESo_ERROR. *)
Definition linear_function (x n : nat) : option Q :=
  let center := (inject_Z (Z.of_nat (n - 1)) / 2)%Q in
  let delta := Qabs (center - inject_Z (Z.of_nat x)) in
  let value := ((1 - (9 # 10) / center * delta) * inject_Z (Z.of_nat n))%Q in
  if negb (Qle_bool zerotol value) then None else Some value.

(** AssignNeighborCoefficients, multiple_elements.hpp:156-167: loop over the entries. *)
Fixpoint assign_loop (i n : nat) (nbs : list nat) (coef : nat -> Q) : option (nat -> Q) :=
  match nbs with
  | [] => Some coef
  | e :: nbs' =>
      match linear_function i n with
      | None => None
      | Some v => assign_loop (i + 1) n nbs' (upd coef e (coef e * v)%Q)
      end
  end.
Definition assign_coefficients (nbs : list nat) (coef : nat -> Q) : option (nat -> Q) :=
  if 1 <? length nbs then assign_loop 0 (length nbs) nbs coef else Some coef.

(** while-loop of ComputeNeighborCoefficients, multiple_elements.hpp:133-147 and the final assignment 148.
    [cur] is current_id - 1. None: fuel exhausted or error. *)
Fixpoint coef_loop (fuel : nat) (d : dir) (cur cnt : nat) (nbs : list nat) (coef : nat -> Q) : option (nat -> Q) :=
  if cnt <? length untrimmed then
    match fuel with
    | 0 => None
    | S fuel' =>
        let '(n, inf) := next_index_g g cur d in
        let local_end := negb (U n) || match inf with Middle => false | _ => true end in
        let cnt' := if U n then cnt + 1 else cnt in
        let nbs' := if U n then nbs ++ [n] else nbs in
        if local_end then
          match assign_coefficients nbs' coef with
          | None => None
          | Some coef' => coef_loop fuel' d n cnt' [] coef'
          end
        else coef_loop fuel' d n cnt' nbs' coef
    end
  else assign_coefficients nbs coef.

(** ComputeNeighborCoefficients, multiple_elements.hpp:119-151. *)
Definition coef_dir (d : dir) (coef : nat -> Q) : option (nat -> Q) :=
  coef_loop (num_elements g) d 0 1 (if U 0 then [0] else []) coef.
Definition compute_coefficients : option (nat -> Q) :=
  match coef_dir XF (fun _ => 1%Q) with
  | None => None
  | Some c1 => match coef_dir YF c1 with None => None | Some c2 => coef_dir ZF c2 end
  end.

(** CompareByCoefficient, multiple_elements.hpp:101-110: does l come after r (has lower priority)? *)
Definition lower_priority (coef : nat -> Q) (l r : nat) : bool :=
  if negb (Qle_bool zerotol (Qabs (coef l - coef r))) then r <? l
  else negb (Qle_bool (coef r) (coef l)).

(** the order in which the priority queue delivers the elements (insertion sort; a heap delivers the same order
    whenever the comparison is a strict weak order). *)
Fixpoint insert_prio (coef : nat -> Q) (x : nat) (l : list nat) : list nat :=
  match l with
  | [] => [x]
  | y :: l' => if lower_priority coef x y then y :: insert_prio coef x l' else x :: l
  end.
Definition queue_order (coef : nat -> Q) : list nat := fold_right (insert_prio coef) [] untrimmed.

(** neighbours[dir], multiple_elements.hpp:183-199. pNextElement (308-310) ignores is_end. *)
Definition candidates (vis : nat -> bool) (box : list nat) (d : dir) : list nat :=
  List.filter (fun j => U j && negb (vis j)) (map (fun i => fst (next_index_g g i d)) box).

(** neighbour_coeffs[dir], multiple_elements.hpp:195. *)
Definition coef_sum (coef : nat -> Q) (l : list nat) : Q := fold_left (fun acc j => (acc + coef j)%Q) l 0%Q.

(** std::max_element: first maximal direction, multiple_elements.hpp:204-205. *)
Definition max_dir (c : dir -> Q) : dir :=
  fold_left (fun best d => if negb (Qle_bool (c d) (c best)) then d else best) [XB; YF; YB; ZF; ZB] XF.

Definition dir_eqb (d d' : dir) : bool :=
  match d, d' with XF, XF | XB, XB | YF, YF | YB, YB | ZF, ZF | ZB, ZB => true | _, _ => false end.

(** required_number_neighbors, multiple_elements.hpp:208-216. *)
Definition required (s : c3) (d : dir) : nat :=
  match d with XF | XB => cy s * cz s | YF | YB => cx s * cz s | ZF | ZB => cx s * cy s end.
(** rBoxSize[dimension_index]++, multiple_elements.hpp:228. *)
Definition grow (s : c3) (d : dir) : c3 :=
  match d with
  | XF | XB => C3 (cx s + 1) (cy s) (cz s)
  | YF | YB => C3 (cx s) (cy s + 1) (cz s)
  | ZF | ZB => C3 (cx s) (cy s) (cz s + 1)
  end.

(** the six attempts, multiple_elements.hpp:203-235: the direction that is accepted, if any. *)
Fixpoint attempts (k : nat) (cand : dir -> list nat) (s : c3) (c : dir -> Q) : option dir :=
  match k with
  | 0 => None
  | S k' =>
      let d := max_dir c in
      if length (cand d) =? required s d then Some d
      else attempts k' cand s (fun d' => if dir_eqb d' d then 0%Q else c d')
  end.

(** current_box, current_box_sizes and the visited flags *)
Record bstate := BState { bs_box : list nat; bs_size : c3; bs_vis : nat -> bool }.

(** TryToExpandCurrentBox, multiple_elements.hpp:176-237 (the bounds are the minimum and maximum over the cells). *)
Definition try_expand (coef : nat -> Q) (b : bstate) : option bstate :=
  let cand := candidates (bs_vis b) (bs_box b) in
  match attempts 6 cand (bs_size b) (fun d => coef_sum coef (cand d)) with
  | None => None
  | Some d => Some (BState (bs_box b ++ cand d) (grow (bs_size b) d)
                           (fold_left (fun v j => upd v j true) (cand d) (bs_vis b)))
  end.

(** while( TryToExpandCurrentBox(...) ), multiple_elements.hpp:85-86. None: fuel exhausted. *)
Fixpoint expand_loop (fuel : nat) (coef : nat -> Q) (b : bstate) : option bstate :=
  match try_expand coef b with
  | None => Some b
  | Some b' => match fuel with 0 => None | S fuel' => expand_loop fuel' coef b' end
  end.

(** the main loop, multiple_elements.hpp:71-90, for a given delivery order: the boxes with their sizes. *)
Fixpoint box_loop (coef : nat -> Q) (order : list nat) (vis : nat -> bool) : option (list (list nat * c3)) :=
  match order with
  | [] => Some []
  | e :: order' =>
      if vis e then box_loop coef order' vis
      else match expand_loop (num_elements g) coef (BState [e] (C3 1 1 1) (upd vis e true)) with
           | None => None
           | Some b => match box_loop coef order' (bs_vis b) with
                       | None => None
                       | Some l => Some ((bs_box b, bs_size b) :: l)
                       end
           end
  end.

(** AssembleIPs, multiple_elements.hpp:58-91, without the point generation: the boxes. *)
Definition assemble_boxes : option (list (list nat * c3)) :=
  match compute_coefficients with
  | None => None
  | Some coef => box_loop coef (queue_order coef) (fun _ => false)
  end.

End Boxes.
