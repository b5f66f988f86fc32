(** Model of the active domains of elements: the full cell of an untrimmed element and the domain of a trimmed element.
    Source: /repo/queso/containers/cell_domain.hpp, element_base.hpp, element_view.hpp and
    /repo/queso/embedding/trimmed_domain.h, trimmed_domain.cpp.
    Simplification: double is R; the lazily created boundary mesh of a cell is created at each call. *)
From Coq Require Import Reals List Bool.
From Verif Require Import Geo GgqModel MappingModel TrimmedQuadModel MeshModel MeshGeoModel TriIpModel StlModel SearchModel GeoQueryModel.
Import ListNotations.
Local Open Scope R_scope.

(** CoordinateSpace, includes/core_definitions.hpp. *)
Inductive space := Global | Parametric.
(** CellDomain::GetBounds, cell_domain.hpp:53-61; ElementBase::GetCellBounds, element_base.hpp:84-92. *)
Definition cell_bounds (sp : space) (b : ebounds) : box := match sp with Global => eb_global b | Parametric => eb_param b end.
(** a <= b on double. *)
Definition rleb (a b : R) : bool := if Rle_dec a b then true else false.
(** CellDomain::IsInside, cell_domain.hpp:98-104. *)
Definition cell_is_inside (sp : space) (p : pt) (b : ebounds) : bool :=
  let c := cell_bounds sp b in
  rleb (px (lower c)) (px p) && rleb (px p) (px (upper c)) && rleb (py (lower c)) (py p)
  && rleb (py p) (py (upper c)) && rleb (pz (lower c)) (pz p) && rleb (pz p) (pz (upper c)).
(** CellDomain::GetIntersectionState, cell_domain.hpp:112-135. *)
Definition cell_state (sp : space) (l u : pt) (b : ebounds) (tol : R) : location :=
  let lower_x := px l + tol in
  let lower_y := py l + tol in
  let lower_z := pz l + tol in
  let upper_x := px u - tol in
  let upper_y := py u - tol in
  let upper_z := pz u - tol in
  let c := cell_bounds sp b in
  let disjoint := rltb upper_x (px (lower c)) || rltb (px (upper c)) lower_x || rltb upper_y (py (lower c))
                  || rltb (py (upper c)) lower_y || rltb upper_z (pz (lower c)) || rltb (pz (upper c)) lower_z in
  if disjoint then LOutside
  else
    let inside := rleb (px (lower c)) lower_x && rleb upper_x (px (upper c)) && rleb (py (lower c)) lower_y
                  && rleb upper_y (py (upper c)) && rleb (pz (lower c)) lower_z && rleb upper_z (pz (upper c)) in
    if inside then LInside else LTrimmed.

(** The loop over the triangles with normals, cell_domain.hpp:80-89 and trimmed_domain.h:160-174; None: exception. *)
Fixpoint domain_ips (sp : space) (l : list (tri pt * pt)) (b : ebounds) : option (list bpoint) :=
  match l with
  | [] => Some []
  | (t, _) :: l' =>
      match get_ips_global t 3, domain_ips sp l' b with
      | Some points, Some rest =>
          Some (map (fun q => let g := BP (b_point q) (b_weight q) (b_normal q) in
                              match sp with Global => g | Parametric => bp_to_parametric g b end) points ++ rest)
      | _, _ => None
      end
  end.
(** CellDomain::GetBoundaryIps, cell_domain.hpp:72-92, with GetOrCreateBoundaryMesh, cell_domain.hpp:144-151. *)
Definition cell_boundary_ips (sp : space) (b : ebounds) : option (list bpoint) :=
  match visit_n (mesh_box (lower (eb_global b)) (upper (eb_global b))) with
  | None => None
  | Some l => domain_ips sp l b
  end.

(** The members of TrimmedDomain that the queries read, trimmed_domain.h:292-297: the triangles of the clipped mesh and its
    query, the closed mesh, the tolerance, and the inside test of the whole geometry (an oracle; None: undefined). *)
Record trimmed := Trimmed { td_clipped : list (tri pt); td_query : gquery; td_closed : mesh pt; td_snap : R; td_global : pt -> option bool }.
(** TrimmedDomain::GetBoundaryIps, trimmed_domain.h:153-177. *)
Definition trimmed_boundary_ips (sp : space) (d : trimmed) (b : ebounds) : option (list bpoint) :=
  match visit_n (td_closed d) with
  | None => None
  | Some l => domain_ips sp l b
  end.
(** TrimmedDomain::IsInsideTrimmedDomain with success flag, trimmed_domain.cpp:40-71: the loop over the remaining triangles;
    the answer and rSuccess. *)
Fixpoint local_inside (g : gquery) (p : pt) (tol : R) (tris : list (tri pt)) : option (bool * bool) :=
  match tris with
  | [] => Some (false, false)
  | q :: tris' =>
      if is_target p tol q then
        match aimed_cast g p q with
        | CastUndefined => None
        | Cast inside true => Some (inside, true)
        | Cast _ false => local_inside g p tol tris'
        end
      else local_inside g p tol tris'
  end.
(** TrimmedDomain::IsInsideTrimmedDomain, trimmed_domain.cpp:25-39. *)
Definition trimmed_inside (d : trimmed) (p : pt) : option bool :=
  let local := match td_clipped d with
               | [] => Some (true, true)
               | tris => local_inside (td_query d) p (td_snap d) tris
               end in
  match local with
  | None => None
  | Some (inside, true) => Some inside
  | Some (_, false) => td_global d p
  end.
(** TrimmedDomain::IsInside, trimmed_domain.h:212-220. *)
Definition trimmed_is_inside (sp : space) (d : trimmed) (p : pt) (b : ebounds) : option bool :=
  trimmed_inside d (match sp with Global => p | Parametric => to_global p b end).
(** TrimmedDomain::GetBoundingBoxOfTrimmedDomain, trimmed_domain.cpp:74-94. *)
Definition extend_lower (v b : R) : R := if rltb v b then v else b.
Definition extend_upper (v b : R) : R := if rltb b v then v else b.
Definition vertices_box (l : list pt) : box :=
  fold_left (fun b v =>
    Box (Pt (extend_lower (px v) (px (lower b))) (extend_lower (py v) (py (lower b))) (extend_lower (pz v) (pz (lower b))))
        (Pt (extend_upper (px v) (px (upper b))) (extend_upper (py v) (py (upper b))) (extend_upper (pz v) (pz (upper b)))))
    l (Box (Pt maxd maxd maxd) (Pt (- maxd) (- maxd) (- maxd))).
(** TrimmedDomain::GetBounds, trimmed_domain.h:183-194. *)
Definition trimmed_bounds (sp : space) (d : trimmed) (b : ebounds) : box :=
  let g := vertices_box (m_vertices (td_closed d)) in
  match sp with Global => g | Parametric => Box (to_parametric (lower g) b) (to_parametric (upper g) b) end.
(** TrimmedDomain::GetIntersectionState in global space, trimmed_domain.cpp:96-109. *)
Definition trimmed_state_global (d : trimmed) (l u : pt) (tol : R) : option location :=
  match do_intersect (td_query d) l u tol with
  | None => None
  | Some true => Some LTrimmed
  | Some false =>
      match trimmed_inside d (vscale (1/2) (vadd l u)) with
      | None => None
      | Some true => Some LInside
      | Some false => Some LOutside
      end
  end.
(** TrimmedDomain::GetIntersectionState, trimmed_domain.h:229-244. *)
Definition trimmed_state (sp : space) (d : trimmed) (l u : pt) (b : ebounds) (tol : R) : option location :=
  match sp with
  | Global => trimmed_state_global d l u tol
  | Parametric => trimmed_state_global d (to_global l b) (to_global u b) tol
  end.

(** ElementBase::GetIntegrationPoints, element_base.hpp:105-123, and ElementView::GetIntegrationPoints, element_view.hpp:90-107
    (which multiplies by the determinant stored at construction, element_view.hpp:58-60; the bounds do not change). *)
Definition element_points (sp : space) (points : list ipoint) (b : ebounds) : list ipoint :=
  match sp with
  | Parametric => points
  | Global => map (fun q => IP (to_global (ip_pos q) b) (ip_weight q * det_j b)) points
  end.
