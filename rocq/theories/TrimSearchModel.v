(** Model of the construction of the domain of a trimmed element and of the search for a domain of sufficient quality.
    Source: /repo/queso/embedding/brep_operator.cpp (ClipTriangleMesh, pGetTrimmedDomain) and trimmed_domain.h (constructor).
    Simplifications: double is R; the inside test of the domain under construction is a parameter (any function of the clipped
    mesh and the tolerance); the random numbers are an arbitrary sequence; reservations are left out. *)
From Coq Require Import Reals List Arith Bool.
From Verif Require Import Geo MappingModel TrimmedQuadModel MeshModel MeshGeoModel ClipModel SearchModel GeoQueryModel DomainModel ContourModel.
Import ListNotations.
Local Open Scope R_scope.

(** RelativeSnapTolerance with SNAPTOL, core_definitions.hpp:67-75. *)
Definition snap_of (lo hi : pt) : R := relative_tol lo hi (/ 10 ^ 12).
(** The members of TrimmedDomain, trimmed_domain.h:292-297; the query is a function of the clipped mesh. *)
Record domain := Domain { dm_clipped : cmesh; dm_closed : mesh pt; dm_snap : R }.

Section TrimSearch.
(** mTriangleMesh and mGeometryQuery of the BRepOperator. *)
Variable src : mesh pt.
Variable g : gquery.
(** The parameters of the triangulation of a face, see ContourModel. *)
Variable lookup : plane -> list point2 -> point2 -> option nat.
Variable sort_points : list point2 -> list point2.
Variable sort_edges : list point2 -> list (edge2 * bool) -> list (edge2 * bool).
(** TrimmedDomain::IsInside of the domain with this clipped mesh and this tolerance. *)
Variable inside : cmesh -> R -> pt -> bool.
(** The numbers drawn from the distribution on [1, 100) for the two vectors of each perturbation, brep_operator.cpp:199-200. *)
Variable rnd : nat -> pt * pt.

(** ClipTriangleMesh, brep_operator.cpp:223-241. *)
Definition clip_cell (lo hi : pt) : option cmesh :=
  and_then (intersected_ids g lo hi (/ 10 * snap_of lo hi)) (fun ids => clip_mesh src ids lo hi).

(** All values; None if one of them is undefined. *)
Fixpoint all_of {A} (l : list (option A)) : option (list A) :=
  match l with [] => Some [] | a :: l => and_then a (fun a => option_map (cons a) (all_of l)) end.
(** TrimmedDomainOnPlane and its pGetTriangulation for one face, trimmed_domain.h:73-97, with the edges of the face,
    trimmed_domain_on_plane.cpp:33-43. *)
Definition face_of (m : cmesh) (lo hi : pt) (switch : bool) (f : nat * bool) : option (mesh pt) :=
  and_then (make_plane (fst f) (snd f) lo hi switch) (fun pl =>
  and_then (all_of (edges_on m (fst f * 2 + (if snd f then 1 else 0)))) (fun es =>
  option_map cm_mesh (face_mesh pl (lookup pl) sort_points sort_edges (inside m (snap_of lo hi)) es))).
(** The order of p_t1 to p_t6, trimmed_domain.h:92-97. *)
Definition six_faces : list (nat * bool) := [(0, false); (0, true); (1, false); (1, true); (2, false); (2, true)]%nat.
(** The constructor of TrimmedDomain, trimmed_domain.h:57-113. *)
Definition make_domain (m : cmesh) (lo hi : pt) (min : nat) (switch : bool) : option domain :=
  if (num_triangles (cm_mesh m) =? 0)%nat then Some (Domain m (cm_mesh m) (snap_of lo hi))
  else
    and_then (all_of (map (face_of m lo hi switch) six_faces)) (fun fs =>
    and_then (fold_left (fun c f => and_then c (fun c => append c f)) fs (Some (cm_mesh m))) (fun c =>
    match refine c min with Ok c => Some (Domain m c (snap_of lo hi)) | _ => None end)).

(** The result of pGetTrimmedDomain: a pointer that may be null, or an exception or undefined behaviour, or no end. *)
Inductive outcome := Found (d : option domain) | Failed | Endless.
(** The loop of pGetTrimmedDomain, brep_operator.cpp:176-214, and the end of the function, brep_operator.cpp:216-219. [cell]: the
    volume of the cell, [step]: snap_tolerance, [k]: the number of the perturbations so far. *)
Section Loop.
Variables (ratio : R) (min : nat) (neglect : bool) (cell step : R).
Fixpoint search_loop (fuel iteration : nat) (switch : bool) (lo hi : pt) (best : option domain) (error : R) (k : nat) : outcome :=
  if (iteration <? 15)%nat then
    match fuel with
    | O => Endless
    | S fuel =>
        let next := search_loop fuel (if switch then S iteration else iteration) (negb switch) in
        match clip_cell lo hi with
        | None => Failed
        | Some m =>
            if (0 <? num_triangles (cm_mesh m))%nat then
              match make_domain m lo hi min switch with
              | None => Failed
              | Some d =>
                  match mesh_volume (dm_closed d), estimate_quality (dm_closed d) with
                  | Some volume, Some epsilon =>
                      let volume_ratio := rltb ratio (volume / cell) in
                      if rltb epsilon (/ 10 ^ 5) then Found (if volume_ratio then Some d else None)
                      else
                        let better := rltb epsilon error && volume_ratio in
                        let best := if better then Some d else best in
                        let error := if better then epsilon else error in
                        if switch then
                          next (vsub lo (vscale step (fst (rnd k)))) (vadd hi (vscale step (snd (rnd k)))) best error (S k)
                        else next lo hi best error k
                  | _, _ => Failed
                  end
              end
            else next lo hi best error k
        end
    end
  else if rltb (/ 10 ^ 2) error && neglect then Found None
  else Found best.
End Loop.
(** pGetTrimmedDomain, brep_operator.cpp:157-220. *)
Definition trimmed_domain (lo hi : pt) (ratio : R) (min : nat) (neglect : bool) : outcome :=
  let delta := vsub hi lo in
  search_loop ratio min neglect (px delta * py delta * pz delta) (10 * snap_of lo hi) 28 1 false lo hi None (5 / 10) 0.
End TrimSearch.
