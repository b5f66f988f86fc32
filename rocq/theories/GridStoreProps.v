(** Properties C06, C07, C08, C09 of the element store. *)
From Coq Require Import Arith List Bool Permutation Reals Lia.
From Verif Require Import GridModel GridSpec GridStoreModel GridStoreSpec GridStoreProofs.
Import ListNotations.

(** C06: after any history of creation calls a look-up returns exactly the element created with that id
    (never reading outside the containers), for each filter. *)
Theorem C06_lookup_returns_created : forall (A : Type) (h : list (event A)) f id,
  get_element f (run h) id =
    match created h id with
    | Some (t, a) => if selected f t then Found t (Elem id a) else NotFound
    | None => NotFound
    end.
Proof. exact (@get_element_run). Qed.
Print Assumptions C06_lookup_returns_created.

Theorem C06_listing_is_created_set : forall (A : Type) (h : list (event A)) f t e,
  In (t, e) (get_elements f (run h)) <-> created h (e_id e) = Some (t, e_data e) /\ selected f t = true.
Proof. exact (@in_get_elements). Qed.
Print Assumptions C06_listing_is_created_set.

Theorem C06_ids_occur_once : forall (A : Type) (h : list (event A)) f,
  NoDup (map (fun x => e_id (snd x)) (get_elements f (run h))).
Proof. exact (@NoDup_ids). Qed.
Print Assumptions C06_ids_occur_once.

(** the listings have as many entries as there are distinct created ids, and the counters are their lengths *)
Theorem C06_listing_counts_ids : forall (A : Type) (h : list (event A)) f ids, NoDup ids ->
  (forall id, In id ids <-> exists t a, created h id = Some (t, a) /\ selected f t = true) ->
  length (get_elements f (run h)) = length ids.
Proof. exact (@count_ids). Qed.
Print Assumptions C06_listing_counts_ids.

Theorem C06_counters : forall (A : Type) (s : store A),
  num_active s = length (get_elements FAll s) /\
  num_trimmed s = length (get_elements FTrimmed s) /\ num_untrimmed s = length (get_elements FUntrimmed s).
Proof. exact (@counts_lengths). Qed.
Print Assumptions C06_counters.

Example C06_ex : let h := [Ev true 5 (Some 10); Ev false 2 None; Ev false 2 (Some 20); Ev true 2 (Some 30); Ev false 7 (Some 40)] in
  created h 2 = Some (false, 20) /\ created h 3 = None /\
  get_elements FAll (run h) = [(false, Elem 2 20); (false, Elem 7 40); (true, Elem 5 10)].
Proof. repeat split. Qed.

(** C07 *)
Theorem C07_duplicate_rejected : forall (A : Type) (h : list (event A)) t id a, created h id <> None ->
  snd (make_element (run h) t id (Some a)) = DuplicateError /\
  same_store (run (h ++ [Ev t id (Some a)])) (run h).
Proof. exact (@duplicate_rejected). Qed.
Print Assumptions C07_duplicate_rejected.

Theorem C07_failed_build_ignored : forall (A : Type) (h : list (event A)) t id,
  snd (make_element (run h) t id None) = NotMade /\ same_store (run (h ++ [Ev t id None])) (run h).
Proof. exact (@failed_build_ignored). Qed.
Print Assumptions C07_failed_build_ignored.

(** conversely a fresh id is accepted, found afterwards, and no other look-up changes *)
Theorem C07_fresh_accepted : forall (A : Type) (h : list (event A)) t id a, created h id = None ->
  snd (make_element (run h) t id (Some a)) = Made /\
  (forall f, get_element f (run (h ++ [Ev t id (Some a)])) id = if selected f t then Found t (Elem id a) else NotFound) /\
  (forall f id', id' <> id -> get_element f (run (h ++ [Ev t id (Some a)])) id' = get_element f (run h) id').
Proof. exact (@fresh_made). Qed.
Print Assumptions C07_fresh_accepted.

Example C07_ex : created [Ev true 5 (Some 10); Ev false 2 (Some 20)] 2 <> None /\
  created [Ev true 5 (Some 10); Ev false 2 (Some 20)] 3 = None.
Proof. split; [discriminate | reflexivity]. Qed.

(** C08: any two orders of the creation loop give the same elements, look-ups, counts and summary numbers. *)
Theorem C08_order_independent : forall (A : Type) cls (bt bu : nat -> option A) n l l',
  Permutation l (active_indices cls n) -> Permutation l' (active_indices cls n) ->
  same_up_to_order (run_loop cls bt bu l) (run_loop cls bt bu l').
Proof. exact (@loop_order_independent). Qed.
Print Assumptions C08_order_independent.

Theorem C08_summary_order_independent : forall cls bt bu n l l',
  Permutation l (active_indices cls n) -> Permutation l' (active_indices cls n) ->
  represented_volume (run_loop cls bt bu l) = represented_volume (run_loop cls bt bu l') /\
  tot_points_full (run_loop cls bt bu l) = tot_points_full (run_loop cls bt bu l') /\
  tot_points_trimmed (run_loop cls bt bu l) = tot_points_trimmed (run_loop cls bt bu l').
Proof. exact loop_summary_order_independent. Qed.
Print Assumptions C08_summary_order_independent.

(** ... namely exactly the cells that are classified trimmed/inside and whose builder succeeds *)
Theorem C08_created_elements : forall (A : Type) cls (bt bu : nat -> option A) n l i f,
  Permutation l (active_indices cls n) ->
  get_element f (run_loop cls bt bu l) (i + 1) =
    (if i <? n then
       match cls i with
       | Trimmed => match bt i with Some a => if selected f true then Found true (Elem (i+1) a) else NotFound | None => NotFound end
       | Inside => match bu i with Some a => if selected f false then Found false (Elem (i+1) a) else NotFound | None => NotFound end
       | Outside => NotFound
       end
     else NotFound).
Proof. exact (@loop_element). Qed.
Print Assumptions C08_created_elements.

Example C08_ex : let cls := fun i => match i with 0 => Trimmed | 1 => Outside | 2 => Inside | _ => Trimmed end in
  active_indices cls 5 = [0; 2; 3; 4] /\ Permutation [3; 0; 4; 2] (active_indices cls 5).
Proof.
  split; [reflexivity|]. simpl.
  apply NoDup_Permutation; [repeat constructor; simpl; lia | repeat constructor; simpl; lia | simpl; intros; lia].
Qed.

(** C09: 'not end' iff the face neighbour exists, is active and selected by the filter; it is the one returned. *)
Theorem C09_next_element : forall (A : Type) g f (h : list (event A)) c d, grid_ok g -> in_grid g c ->
  let r := get_next g f (run h) (vec_of g c + 1) d in
  nr_id r = fst (next_index_g g (vec_of g c) d) + 1 /\
  nr_element r = get_element f (run h) (nr_id r) /\
  (nr_is_end r = false <->
     exists c' t a, face_nb d c c' /\ in_grid g c' /\ nr_id r = vec_of g c' + 1 /\
                  created h (vec_of g c' + 1) = Some (t, a) /\ selected f t = true /\
                  nr_element r = Found t (Elem (vec_of g c' + 1) a)).
Proof. exact (@next_spec). Qed.
Print Assumptions C09_next_element.

Theorem C09_is_end : forall g c d, grid_ok g -> in_grid g c ->
  (store_is_end g (vec_of g c + 1) d = true <-> forall c', face_nb d c c' -> ~ in_grid g c').
Proof. exact store_is_end_spec. Qed.
Print Assumptions C09_is_end.

(** a wrapped neighbour is returned although the step reports the end of the row *)
Example C09_ex : let h := [Ev false 1 (Some 0); Ev false 2 (Some 0); Ev false 3 (Some 7)] in
  get_next (Grid 2 2 1) FAll (run h) 2 XF = Next nat (Found false (Elem 3 7)) 3 true /\
  get_next (Grid 2 2 1) FAll (run h) 1 YF = Next nat (Found false (Elem 3 7)) 3 false.
Proof. split; reflexivity. Qed.
