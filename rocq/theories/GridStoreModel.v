(** Model of the element store of the background grid and of the element creation loop.
    Sources: /repo/queso/containers/background_grid.hpp, /repo/queso/embedded_model.cpp.
    Simplifications (whole file): an element is its id plus an abstract content [A] (bounds, domain, points);
    IndexType is [nat]; the atomicity of '#pragma omp critical' (background_grid.hpp:330-350) is taken as given,
    so a parallel run is a sequence of the critical sections in some order;
    the debug assertions on mElementsLocked (lines 129, 155, 326) are preconditions (creation before, look-up
    after LockElements) and the flag itself is not modelled. *)
From Coq Require Import Arith List Bool Reals.
From Verif Require Import GridModel.
Import ListNotations.

Section Store.
Variable A : Type.

(** UntrimmedElement / TrimmedElement: id and content (containers/element_base.hpp, element_core.hpp). *)
Record elem := Elem { e_id : nat; e_data : A }.

(** ElementStorageLocation, background_grid.hpp:87-91: (is_trimmed, index). *)
Record location := Loc { l_trimmed : bool; l_index : nat }.

(** members mUntrimmedElements, mTrimmedElements, mElementIdMap, background_grid.hpp:422-424.
    The hash map is an association list. *)
Record store := Store { st_untrimmed : list elem; st_trimmed : list elem; st_map : list (nat * location) }.

(** constructor, background_grid.hpp:98-99 *)
Definition empty_store : store := Store [] [] [].

(** mElementIdMap.find(Id), background_grid.hpp:130, 157. *)
Fixpoint map_find (m : list (nat * location)) (id : nat) : option location :=
  match m with
  | [] => None
  | (k, v) :: m' => if k =? id then Some v else map_find m' id
  end.

(** outcome of MakeElement: return true / return false / QuESo_ERROR *)
Inductive outcome := Made | NotMade | DuplicateError.

(** MakeElement, background_grid.hpp:324-352. [built] is the result of rBuilder.Build (line 327),
    [trimmed] is TBuilderType::Builds == trimmed. The builder labels the element with the given Id
    (element_builders.hpp:121, 215). *)
Definition make_element (s : store) (trimmed : bool) (id : nat) (built : option A) : store * outcome :=
  match built with
  | None => (s, NotMade)
  | Some a =>
      match map_find (st_map s) id with
      | Some _ => (s, DuplicateError)
      | None =>
          if trimmed then
            (Store (st_untrimmed s) (st_trimmed s ++ [Elem id a]) ((id, Loc true (length (st_trimmed s))) :: st_map s), Made)
          else
            (Store (st_untrimmed s ++ [Elem id a]) (st_trimmed s) ((id, Loc false (length (st_untrimmed s))) :: st_map s), Made)
      end
  end.

(** enum class ElementFilter, background_grid.hpp:62. *)
Inductive filter := FAll | FTrimmed | FUntrimmed.

(** result of a look-up; OutOfRange stands for the undefined behaviour of operator[] behind the end *)
Inductive found := NotFound | Found (trimmed : bool) (e : elem) | OutOfRange.
Definition at_index (trimmed : bool) (l : list elem) (i : nat) : found :=
  match nth_error l i with Some e => Found trimmed e | None => OutOfRange end.

(** GetElementView<TFilter>, background_grid.hpp:126-143 and pGetElement<TFilter>, 149-168
    (a view/pointer is identified with the element; nullopt/nullptr is NotFound). *)
Definition get_element (f : filter) (s : store) (id : nat) : found :=
  match map_find (st_map s) id with
  | None => NotFound
  | Some loc =>
      match f with
      | FAll => if l_trimmed loc then at_index true (st_trimmed s) (l_index loc)
                else at_index false (st_untrimmed s) (l_index loc)
      | FUntrimmed => if negb (l_trimmed loc) then at_index false (st_untrimmed s) (l_index loc) else NotFound
      | FTrimmed => if l_trimmed loc then at_index true (st_trimmed s) (l_index loc) else NotFound
      end
  end.

(** GetElementViews<TFilter>, background_grid.hpp:176-194 (with the is-trimmed flag of the view). *)
Definition get_elements (f : filter) (s : store) : list (bool * elem) :=
  let u := map (pair false) (st_untrimmed s) in
  let t := map (pair true) (st_trimmed s) in
  match f with FAll => u ++ t | FUntrimmed => u | FTrimmed => t end.

(** NumberOfActiveElements / NumberOfUntrimmedElements / NumberOfTrimmedElements, background_grid.hpp:245-256. *)
Definition num_active (s : store) : nat := length (st_untrimmed s) + length (st_trimmed s).
Definition num_untrimmed (s : store) : nat := length (st_untrimmed s).
Definition num_trimmed (s : store) : nat := length (st_trimmed s).

(** one call of MakeElement: trimmed builder?, id, result of the builder *)
Record event := Ev { ev_trimmed : bool; ev_id : nat; ev_built : option A }.
Definition step (s : store) (e : event) : store := fst (make_element s (ev_trimmed e) (ev_id e) (ev_built e)).
Definition run (h : list event) : store := fold_left step h empty_store.

(** result of GetNextElementView / GetNextElement, background_grid.hpp:64-84. *)
Record next_result := Next { nr_element : found; nr_id : nat; nr_is_end : bool }.

(** GetNextElementByDirection + GetNextElementByIndexer, background_grid.hpp:365-417.
    CurrentId - 1 is natural-number subtraction: for CurrentId = 0 the C++ wraps around (not a valid id). *)
Definition get_next (g : grid) (f : filter) (s : store) (id : nat) (d : dir) : next_result :=
  let '(next_index, inf) := next_index_g g (id - 1) d in
  let next_id := next_index + 1 in
  let is_end := match inf with Middle => false | _ => true end in
  let e := get_element f s next_id in
  Next e next_id (match e with NotFound => true | _ => is_end end).

(** IsEnd(CurrentId, Dir), background_grid.hpp:316-317. *)
Definition store_is_end (g : grid) (id : nat) (d : dir) : bool := is_end g (id - 1) d (global_part g).

(** enum class IntersectionState, includes/core_definitions.hpp *)
Inductive istate := Inside | Outside | Trimmed.

(** active_indices, embedded_model.cpp:58-82: cells whose state is trimmed or inside, in increasing order. *)
Definition active_indices (cls : nat -> istate) (n : nat) : list nat :=
  List.filter (fun i => match cls i with Trimmed | Inside => true | Outside => false end) (seq 0 n).

(** body of the parallel loop, embedded_model.cpp:89-101: MakeElement with the builder of the state, id = index+1.
    [bt], [bu]: results of the trimmed and the untrimmed builder for a cell. *)
Definition loop_event (cls : nat -> istate) (bt bu : nat -> option A) (i : nat) : event :=
  match cls i with
  | Trimmed => Ev true (i + 1) (bt i)
  | _ => Ev false (i + 1) (bu i)
  end.

(** the parallel loop, executed in the order [l], embedded_model.cpp:88-101. *)
Definition run_loop (cls : nat -> istate) (bt bu : nat -> option A) (l : list nat) : store :=
  run (map (loop_event cls bt bu) l).

End Store.

Arguments Elem {A}. Arguments e_id {A}. Arguments e_data {A}.
Arguments Store {A}. Arguments st_untrimmed {A}. Arguments st_trimmed {A}. Arguments st_map {A}.
Arguments empty_store {A}. Arguments make_element {A}. Arguments get_element {A}. Arguments get_elements {A}.
Arguments NotFound {A}. Arguments Found {A}. Arguments OutOfRange {A}. Arguments at_index {A}.
Arguments num_active {A}. Arguments num_untrimmed {A}. Arguments num_trimmed {A}.
Arguments Ev {A}. Arguments ev_trimmed {A}. Arguments ev_id {A}. Arguments ev_built {A}.
Arguments step {A}. Arguments run {A}. Arguments get_next {A}. Arguments loop_event {A}. Arguments run_loop {A}.
Arguments nr_element {A}. Arguments nr_id {A}. Arguments nr_is_end {A}.

(** Integration data of an element that enters the volume summary: DetJ() and the point weights. *)
Record quad_data := QData { q_detj : R; q_weights : list R }.

(** QuadratureInfo, embedded_model.cpp:155-170: represented volume, number of points (full / trimmed). *)
Definition sum_weights (l : list R) : R := fold_left Rplus l 0%R.
Definition represented_volume (s : store quad_data) : R :=
  fold_left (fun acc te => (acc + q_detj (e_data (snd te)) * sum_weights (q_weights (e_data (snd te))))%R)
            (get_elements FAll s) 0%R.
Definition tot_points_full (s : store quad_data) : nat :=
  fold_left (fun acc te => if fst te : bool then acc else acc + length (q_weights (e_data (snd te)))) (get_elements FAll s) 0.
Definition tot_points_trimmed (s : store quad_data) : nat :=
  fold_left (fun acc te => if fst te : bool then acc + length (q_weights (e_data (snd te))) else acc) (get_elements FAll s) 0.
