(** Specification vocabulary for ComputeVolume: volumes of surfaces made of triangles and the error that is allowed. *)
From Coq Require Import Reals List Arith NArith ZArith Bool.
From Verif Require Import Geo GridModel GridSpec GridGeoModel BoxModel BoxSpec GgqModel GgqProps Ggq1dModel MappingModel TrimmedQuadModel TrimmedQuadAssemble TrimmedQuadLemmas MeshModel MeshGeoModel MeshGeoProofs
  DomainModel TrimSearchModel GridStoreModel DivSpec VolumeModel.
Import ListNotations.
Local Open Scope R_scope.

(** The cells with a given state. *)
Definition state_eqb (a b : istate) : bool := match a, b with Inside, Inside | Outside, Outside | Trimmed, Trimmed => true | _, _ => false end.
Definition cells_of (st : istate) (cls : nat -> istate) (n : nat) : list nat := List.filter (fun i => state_eqb (cls i) st) (seq 0 n).

(** Signed volume between a surface and the origin, which is the volume of the enclosed region if the surface is closed. *)
Definition signed_volume (l : list (tri pt)) : R := sum (fun t => 1 / 6 * cone_det (Pt 0 0 0) t) l.
(** The largest absolute value of a coordinate. *)
Definition reach_pt (p : pt) : R := Rmax (Rabs (px p)) (Rmax (Rabs (py p)) (Rabs (pz p))).
Definition reach_of (l : list (tri pt)) : R := fold_right (fun t m => Rmax (Rmax (reach_pt (P1 t)) (Rmax (reach_pt (P2 t)) (reach_pt (P3 t)))) m) 0 l.
(** The surface of a domain. *)
Definition surface_of (d : domain) : list (tri pt) := match visit (dm_closed d) with Some l => l | None => [] end.
(** The surface of the domain of an element. *)
Definition element_surface (c : content) : list (tri pt) := match co_domain c with Some d => surface_of d | None => [] end.

(** The Euclidean norm of the moments of a domain. *)
Definition moments_norm (o : nat * nat * nat) (b : ebounds) (d : domain) : R :=
  match domain_points d b with Some bps => sqrt (sum (fun r => constant_term (eb_global b) bps r ^ 2) (rows o)) | None => 0 end.
(** Allowed error of the volume of a trimmed element: one percent of the norm of the moments, the points that are dropped since their
    weight is less than 1e-14, the rounding of the tabulated rule for triangles, and the triangles without a normal. *)
Definition trimmed_error (o : nat * nat * nat) (c : content) : R :=
  match co_domain c with
  | None => 0
  | Some d => / 100 * moments_norm o (co_bounds c) d + INR (moments_of o) * / 10 ^ 14 * det_j (co_bounds c)
      + (/ 10 ^ 13 * sum tri_area (surface_of d) + / 10 ^ 14 * INR (length (surface_of d))) * reach_of (surface_of d)
  end.
(** The domain of an element is not flat and not all its moments vanish, and the solver keeps its promise for its equations: the
    weights are not negative and the residual is the true one (C62: always unless the iteration count of the solver is exceeded). *)
Definition solvable (oc : oracles) (o : nat * nat * nat) (c : content) : Prop :=
  forall d, co_domain c = Some d -> box_ok (vertices_box (m_vertices (dm_closed d))) /\
    forall bps, domain_points d (co_bounds c) = Some bps ->
      (exists i j k, moment_index o i j k /\ constant_term (eb_global (co_bounds c)) bps (i, j, k) <> 0) /\
      forall cand, cand <> [] -> contract_at (or_nnls oc) (map (column (co_bounds c) o) cand) (map (constant_term (eb_global (co_bounds c)) bps) (rows o)).

(** A cell of the grid that lies inside. *)
Definition full_cell (cls : nat -> istate) (n i : nat) : bool := (i <? n)%nat && state_eqb (cls i) Inside.
(** What the generalized Gauss rules need: a grid of B-spline cells, degrees 2 to 4, no two cells inside that lie at opposite sides of
    the grid (see C16), and one-dimensional rules whose points do not come closer than 1e-12 to the upper end of the box (see C17). *)
Definition box_rules (se : settings) (m : ggq) (s : c3) (a : axis) : rule := match box_rule se m s a with Some r => r | None => [] end.
Definition ggq_guard (se : settings) (gi : indexer) (cls : nat -> istate) : Prop :=
  match se_method se with
  | UseGauss _ => True
  | UseGgq m => gi_bspline gi = true /\ (forall a, (2 <= order_at se a <= 4)%nat) /\
      no_wrap (gi_grid gi) (full_cell cls (num_elements (gi_grid gi))) /\
      forall boxes l s, assemble_boxes (gi_grid gi) (full_cell cls (num_elements (gi_grid gi))) = Some boxes -> In (l, s) boxes ->
        rule_fits (bounds_of (box_uvw gi) l) (box_rules se m s)
  end.
