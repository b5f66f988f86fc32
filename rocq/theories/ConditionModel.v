(** Model of the conditions: surface meshes that are divided by the cells of the background grid.
    Source: /repo/queso/embedded_model.cpp, embedding/brep_operator.cpp, containers/condition.hpp and
    containers/condition_segment.hpp.
    Simplifications: double is R; the condition settings, the timers and the messages are left out
    (CheckIfMeshIsWithinBoundingBox, embedded_model.cpp:345-371, only prints a warning); None is an exception or undefined behaviour. *)
From Coq Require Import Reals List Arith NArith ZArith Bool.
From Verif Require Import Geo MappingModel TrimmedQuadModel GridModel GridGeoModel GridStoreModel MeshModel MeshGeoModel ClipModel SearchModel GeoQueryModel.
Import ListNotations.
Local Open Scope R_scope.

(** The offset of the bounds in ClipTriangleMeshUnique, brep_operator.cpp:245. *)
Definition unique_offset : pt := Pt (30 * zerotol) (30 * zerotol) (30 * zerotol).
(** ClipTriangleMeshUnique, brep_operator.cpp:244-265, with the search [g] over the triangles of [src]. *)
Definition clip_unique (g : gquery) (src : mesh pt) (lo hi : pt) : option cmesh :=
  let lo := vadd lo unique_offset in                                       (* :246 *)
  let hi := vadd hi unique_offset in                                       (* :247 *)
  and_then (intersected_ids g lo hi (1 * zerotol)) (fun ids =>             (* :248-250 *)
  clip_mesh src ids lo hi).                                                (* :251-264 *)

Section Condition.
Context {A : Type}.
(** ConditionSegment, condition_segment.hpp:83-85; the element with its kind (trimmed or not). *)
Record segment := Segment { s_index : nat; s_mesh : cmesh; s_element : option (bool * elem A) }.
(** The loop body, embedded_model.cpp:238-259: Some None: no segment; otherwise the segment and the summand of the area in the
    active domain. *)
Definition cell_segment (g : gquery) (src : mesh pt) (gi : indexer) (st : store A) (i : nat) : option (option (segment * R)) :=
  let b := box_xyz gi i in                                                 (* :240 *)
  and_then (clip_unique g src (lower b) (upper b)) (fun m =>               (* :241 *)
  if (0 <? num_triangles (cm_mesh m))%nat then                             (* :243 *)
    match get_element FAll st (i + 1) with                                 (* :244 *)
    | OutOfRange => None
    | NotFound => and_then (mesh_area (cm_mesh m)) (fun _ => Some (Some (Segment i m None, 0)))
    | Found t e => and_then (mesh_area (cm_mesh m)) (fun a => Some (Some (Segment i m (Some (t, e)), a)))
    end
  else Some None).
(** What the iterations add to the condition, condition.hpp:70-71 (emplace_back in the critical section). *)
Definition added (l : list (option (segment * R))) : list segment :=
  flat_map (fun o => match o with Some (s, _) => [s] | None => [] end) l.
Definition summand (o : option (segment * R)) : R := match o with Some (_, a) => a | None => 0 end.
(** A condition and the values that are written to the model info, embedded_model.cpp:213-229, 262-269.
    A division 0/0 gives not-a-number: None. *)
Record condition := Condition { co_segments : list segment; co_surf_area : R; co_active_area : R; co_percent : option R }.
(** The indices of the parallel loop, embedded_model.cpp:237-238 (static_cast<int>). *)
Definition omp_cells (gi : indexer) : list nat := seq 0 (Z.to_nat (int_of_size (N.of_nat (num_elements (gi_grid gi))))).
(** ComputeCondition, embedded_model.cpp:197-288. The schedule of the parallel loops is up to the OpenMP runtime:
    [area_chunks]: the partial sums of AreaOMP; [chunks]: the partial sums of the loop over the cells; [order]: the order in
    which the iterations of this loop get to their critical section (iterations without a segment do not have one). *)
Definition compute_condition (junk : nat -> node RA) (src : mesh pt) (gi : indexer) (st : store A)
    (area_chunks chunks : list (list nat)) (order : list nat) : option condition :=
  and_then (mesh_area_omp area_chunks src) (fun area =>                    (* :218 *)
  and_then (visit src) (fun tris =>
  and_then (make_query junk tris true) (fun g =>                           (* :232 *)
  and_then (visit_chunks (cell_segment g src gi st) chunks) (fun cs =>     (* :237-259 *)
  and_then (visit_list (cell_segment g src gi st) order) (fun os =>
  let active := reduction summand cs in
  Some (Condition (added os) area active (if Req_EM_T area 0 then None else Some (active / area * 100)))))))). (* :267-269 *)
End Condition.
Arguments segment : clear implicits. Arguments condition : clear implicits.
