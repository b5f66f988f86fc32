(** Model of the parallel regions of the flood fill with threads that interleave access by access.
    Source: /repo/queso/embedding/flood_fill.cpp:68-73, 98-118 and 120-221.
    Threads share the vector of states and the vector of groups. They write states without protection and push groups in a critical
    section (136-137); they read neither of them, so that what a thread does does not depend on the others. The vector [visited] is
    private (firstprivate, 124): a thread that gets several partitions keeps the marks of the earlier ones.
    Simplifications: as in FloodModel for the geometric tests and the votes; reads of constant data are left out. *)
From Coq Require Import Arith List Bool ZArith.
From Verif Require Import GridModel GridStoreModel GridGeoModel Geo FloodModel.
Import ListNotations.

(** Accesses to the shared vectors: rStates[i] = v, and rGroupSetVector.push_back(gr) in the critical section. *)
Inductive event := Mark (i : nat) (v : istate) | Push (gr : group).

Section Threads.
Variable g : grid.
Variable T : nat -> bool.
Variable P : nat -> dir -> bool.
Variable V : nat -> nat -> dir -> bool.

(** What is private to a thread: the vector visited and the group that is being filled. *)
Record private := Private { p_visited : nat -> bool; p_group : group }.
(** Move, flood_fill.cpp:181-221. *)
Definition t_move (p : part) (i : nat) (d : dir) (s : private) : option nat * private * list event :=
  let '(n, inf) := next_index g i d p in
  match inf with
  | Middle =>
      if P n d then
        (None, Private (p_visited s) (Group (g_part (p_group s)) (g_set (p_group s)) (g_count (p_group s) + inside_count V i n d)), [])
      else if p_visited s n then (None, s, [])
      else if T n then (None, Private (upd (p_visited s) n true) (p_group s), [Mark n Trimmed])
      else (Some n, Private (upd (p_visited s) n true) (Group (g_part (p_group s)) (set_insert n (g_set (p_group s))) (g_count (p_group s))), [])
  | _ => (None, s, [])
  end.
(** flood_fill.cpp:168-170. *)
Fixpoint t_moves (p : part) (i : nat) (ds : list dir) (s : private) : list nat * private * list event :=
  match ds with
  | [] => ([], s, [])
  | d :: ds => let '(r, s1, e1) := t_move p i d s in
               let '(rs, s2, e2) := t_moves p i ds s1 in
               (match r with Some n => n :: rs | None => rs end, s2, e1 ++ e2)
  end.
(** flood_fill.cpp:165-177; None: fuel exhausted. *)
Fixpoint t_loop (fuel : nat) (p : part) (stack : list nat) (s : private) : option (private * list event) :=
  match stack with
  | [] => Some (s, [])
  | i :: stack =>
      match fuel with
      | 0 => None
      | S fuel => let '(new, s1, e1) := t_moves p i directions s in
                  match t_loop fuel p (rev new ++ stack) s1 with Some (s2, e2) => Some (s2, e1 ++ e2) | None => None end
      end
  end.
(** Fill, flood_fill.cpp:146-179. *)
Definition t_fill (p : part) (k i : nat) (vis : nat -> bool) : option (private * list event) :=
  let vis' := upd vis i true in
  if T i then Some (Private vis' (Group k [] 0), [Mark i Trimmed])
  else t_loop (S (num_elements g)) p [i] (Private vis' (Group k [i] 0)).
(** One iteration of the parallel loop, flood_fill.cpp:125-142. *)
Fixpoint t_cells (p : part) (k : nat) (cells : list nat) (vis : nat -> bool) : option ((nat -> bool) * list event) :=
  match cells with
  | [] => Some (vis, [])
  | i :: cells =>
      if vis i then t_cells p k cells vis
      else match t_fill p k i vis with
           | None => None
           | Some (s, e1) =>
               match t_cells p k cells (p_visited s) with
               | Some (vis', e2) => Some (vis', e1 ++ (match g_set (p_group s) with [] => [] | _ => [Push (p_group s)] end) ++ e2)
               | None => None
               end
           end
  end.
(** A thread works on the partitions with the numbers ks, one after the other. *)
Fixpoint thread (ps : list part) (ks : list nat) (vis : nat -> bool) : option (list event) :=
  match ks with
  | [] => Some []
  | k :: ks =>
      match nth_error ps k with
      | None => None
      | Some p => match t_cells p k (slab_cells g p) vis with
                  | Some (vis', e1) => match thread ps ks vis' with Some e2 => Some (e1 ++ e2) | None => None end
                  | None => None
                  end
      end
  end.
(** The accesses of all threads; [work] are the partitions of each thread. *)
Fixpoint all_threads (ps : list part) (work : list (list nat)) : option (list (list event)) :=
  match work with
  | [] => Some []
  | ks :: work => match thread ps ks (fun _ => false), all_threads ps work with Some e, Some es => Some (e :: es) | _, _ => None end
  end.
End Threads.

(** The shared vectors after a sequence of accesses. *)
Definition marks (st : nat -> istate) (es : list event) : nat -> istate :=
  fold_left (fun st e => match e with Mark i v => upd st i v | Push _ => st end) es st.
Fixpoint pushes (es : list event) : list group :=
  match es with [] => [] | Push gr :: es => gr :: pushes es | Mark _ _ :: es => pushes es end.
(** The accesses of the threads in any order that keeps the order within each thread. *)
Inductive interleaving {E : Type} : list (list E) -> list E -> Prop :=
| all_done : forall ts, (forall t, In t ts -> t = []) -> interleaving ts []
| one_step : forall a e t b es, interleaving (a ++ t :: b) es -> interleaving (a ++ (e :: t) :: b) (e :: es).
(** ClassifyElements, flood_fill.cpp:68-118: the number of threads that the partitions are made for, the partitions of each thread in the
    parallel loop (any distribution), and any interleaving. *)
Inductive classified (g : grid) (T : nat -> bool) (P : nat -> dir -> bool) (V : nat -> nat -> dir -> bool) (threads : nat) : option (nat -> istate) -> Prop :=
| classified_by : forall work ts es, Permutation.Permutation (concat work) (seq 0 (length (partitions g threads))) ->
    all_threads g T P V (partitions g threads) work = Some ts -> interleaving ts es ->
    classified g T P V threads (finish g P V threads (marks (fun _ => Outside) es) (pushes es)).

(** The region that counts the threads, flood_fill.cpp:69-73: every thread writes the shared variable num_threads. *)
Definition count_threads (n : nat) : list (list nat) := repeat [n] n.
Definition counted (es : list nat) : nat := last es 1.
