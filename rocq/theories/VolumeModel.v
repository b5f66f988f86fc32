(** Model of ComputeVolume: the elements of the background grid, their integration points and the values of the model info.
    Source: /repo/queso/embedded_model.cpp and /repo/queso/embedding/element_builders.hpp.
    Simplifications: double is R; the settings are read once into a record; timers and messages are left out
    (CheckIfMeshIsWithinBoundingBox, embedded_model.cpp:345-371, only prints a warning); the classification of the cells is a
    parameter (it is modelled in FloodModel); an exception and undefined behaviour are one outcome. *)
From Coq Require Import Reals List Arith NArith ZArith Bool.
From Verif Require Import Geo GridModel GridGeoModel GgqModel Ggq1dModel GaussModel MappingModel BoxModel TrimmedQuadModel MeshModel MeshGeoModel
  ClipModel SearchModel GeoQueryModel DomainModel ContourModel TrimSearchModel GridStoreModel.
Import ListNotations.
Local Open Scope R_scope.

(** IntegrationMethod, includes/core_definitions.hpp; element_builders.hpp:200 tells the two kinds apart by the numeric value. *)
Inductive quadrature := UseGauss (m : gauss) | UseGgq (m : ggq).
(** What the builders read from the settings, element_builders.hpp:62-100 and 189-201. *)
Record settings := Settings { se_order : nat * nat * nat; se_method : quadrature; se_ratio : R; se_min : nat; se_neglect : bool;
  se_residual : R; se_alpha : option R }.
(** mMinVolRatio, element_builders.hpp:64-71. *)
Definition min_ratio (se : settings) : R := Rmax (se_ratio se) (/ 10 ^ 10).
(** MIND, includes/core_definitions.hpp:58. *)
Definition mind : R := / 2 ^ 1022.

(** The parts that are not modelled here: the search for vertices and the two sorting functions of the triangulation of faces
    (ContourModel), the inside test of a domain under construction, the random numbers that are drawn for a cell, the solver of the
    least squares problems (NnlsModel), the order of points of equal weight (TrimmedQuadModel), the inside test and the
    classification of boxes of a domain (DomainModel). *)
Record oracles := Oracles {
  or_lookup : plane -> list point2 -> point2 -> option nat;
  or_sort_points : list point2 -> list point2;
  or_sort_edges : list point2 -> list (edge2 * bool) -> list (edge2 * bool);
  or_inside : cmesh -> R -> pt -> bool;
  or_random : nat -> nat -> pt * pt;
  or_nnls : list (list R) -> list R -> list R * R;
  or_sort : list ipoint -> list ipoint;
  or_contains : domain -> pt -> bool;
  or_state : domain -> box -> istate }.

(** The members of an element, containers/element_base.hpp, trimmed_element.hpp, untrimmed_element.hpp: bounds, points, domain. *)
Record content := Content { co_bounds : ebounds; co_points : list ipoint; co_domain : option domain }.

Section Volume.
Variable oc : oracles.
Variable se : settings.
Variable gi : indexer.
Variable cls : nat -> istate.
(** the content of the memory that the tree of the geometry query does not initialise, see SearchModel *)
Variable junk : nat -> node RA.
Variable src : mesh pt.

(** The bounds of a cell, embedded_model.cpp:93-94. *)
Definition bounds_at (i : nat) : ebounds := EB (box_xyz gi i) (box_uvw gi i).

(** The boundary points of a domain, trimmed_domain.h:153-177. *)
Definition domain_points (d : domain) (b : ebounds) : option (list bpoint) := and_then (visit_n (dm_closed d)) (fun l => domain_ips Global l b).
(** QuadratureTrimmedElement::AssembleIPs for the domain [d], element_builders.hpp:121-131: the points, or no element. *)
Definition fit_domain (b : ebounds) (d : domain) : res (option (list ipoint)) :=
  match domain_points d b with
  | None => Undefined
  | Some bps => build_trimmed (or_nnls oc) (or_sort oc) (or_contains oc d) (or_state oc d) mind maxd b (se_order se) (se_residual se)
                  (Some (bps, vertices_box (m_vertices (dm_closed d)))) (se_alpha se)
  end.
(** TrimmedElementBuilder::Build, element_builders.hpp:111-132; [g]: the query of the BRepOperator. *)
Definition trimmed_element (g : gquery) (i : nat) : res (option content) :=
  let b := bounds_at i in
  match trimmed_domain src g (or_lookup oc) (or_sort_points oc) (or_sort_edges oc) (or_inside oc) (or_random oc i)
          (lower (eb_global b)) (upper (eb_global b)) (min_ratio se) (se_min se) (se_neglect se) with
  | Failed => Undefined
  | Endless => OutOfFuel
  | TrimSearchModel.Found None => Ok None
  | TrimSearchModel.Found (Some d) =>
      match fit_domain b d with
      | Ok (Some pts) => Ok (Some (Content b pts (Some d)))
      | Ok None => Ok None
      | Undefined => Undefined
      | OutOfFuel => OutOfFuel
      end
  end.
(** UntrimmedElementBuilder::Build, element_builders.hpp:213-220. *)
Definition full_element (i : nat) : res (option content) :=
  let b := bounds_at i in
  match se_method se with
  | UseGgq _ => Ok (Some (Content b [] None))
  | UseGauss m => match assemble_ips (eb_param b) (se_order se) m with Some pts => Ok (Some (Content b pts None)) | None => Undefined end
  end.

(** The loop over the active cells, embedded_model.cpp:84-101, whose critical sections are executed in the order [order]. Undefined: a
    builder fails (an exception leaves the parallel region and ends the program). *)
Definition value {A} (r : res (option A)) : option A := match r with Ok a => a | _ => None end.
Definition is_ok {A} (r : res A) : bool := match r with Ok _ => true | _ => false end.
Definition create_elements (g : gquery) (order : list nat) : res (store content) :=
  if forallb (fun i => match cls i with Trimmed => is_ok (trimmed_element g i) | _ => is_ok (full_element i) end) order
  then Ok (run_loop cls (fun i => value (trimmed_element g i)) (fun i => value (full_element i)) order)
  else Undefined.
(** The iterations of the loop, embedded_model.cpp:89: the first static_cast<int>(active_indices.size()) active indices. *)
Definition iterations : list nat :=
  let a := active_indices cls (num_elements (gi_grid gi)) in firstn (Z.to_nat (int_of_size (N.of_nat (length a)))) a.

(** pGetElement<untrimmed>(i + 1) is not null. *)
Definition is_full {A} (s : store A) (i : nat) : bool := match get_element FUntrimmed s (i + 1) with GridStoreModel.Found _ _ => true | _ => false end.
Definition order_at (a : axis) : nat := let '(ou, ov, ow) := se_order se in match a with AX => ou | AY => ov | AZ => ow end.
(** The rules of a box, multiple_elements.hpp:264-266. *)
Definition box_rule (m : ggq) (n : c3) (a : axis) : option rule := option_map real_rule (get_ggq (order_at a) (c_at a n) m).
(** AssembleGGQRulesOnBox for all elements of a box, multiple_elements.hpp:245-300. *)
Definition box_assembly (m : ggq) (b : list nat * c3) : option (list (nat * list ipoint)) :=
  match box_rule m (snd b) AX, box_rule m (snd b) AY, box_rule m (snd b) AZ with
  | Some u, Some v, Some w => Some (box_points (box_uvw gi) (fst b) (fun a => match a with AX => u | AY => v | AZ => w end))
  | _, _, _ => None
  end.
(** QuadratureMultipleElements::AssembleIPs, multiple_elements.hpp:58-91: the points for the cells of all boxes. *)
Definition ggq_points {A} (m : ggq) (s : store A) : option (list (nat * list ipoint)) :=
  and_then (assemble_boxes (gi_grid gi) (is_full s)) (fun boxes => option_map (@concat _) (all_of (map (box_assembly m) boxes))).
(** emplace_back of these points to the points of the elements, multiple_elements.hpp:285-298. *)
Definition points_for (l : list (nat * list ipoint)) (i : nat) : list ipoint := flat_map (fun q => if (fst q =? i)%nat then snd q else []) l.
Definition extended (l : list (nat * list ipoint)) (e : elem content) : elem content :=
  Elem (e_id e) (Content (co_bounds (e_data e)) (co_points (e_data e) ++ points_for l (e_id e - 1)) (co_domain (e_data e))).
Definition extend_elements (l : list (nat * list ipoint)) (s : store content) : store content :=
  Store (map (extended l) (st_untrimmed s)) (st_trimmed s) (st_map s).
(** embedded_model.cpp:105-113. *)
Definition finish_elements (s : store content) : res (store content) :=
  match se_method se with
  | UseGauss _ => Ok s
  | UseGgq m => match ggq_points m s with Some l => Ok (extend_elements l s) | None => Undefined end
  end.

(** The values of the model info, embedded_model.cpp:34-39 and 137-192. A division by 0 gives not-a-number or infinity: None. *)
Record info := Info { in_volume : R; in_closed : bool; in_active : nat; in_trimmed : nat; in_full : nat; in_inactive : nat;
  in_points : nat; in_represented : R; in_percent : option R; in_per_full : R; in_per_trimmed : R }.
(** DetJ() and the weights of an element, containers/element_base.hpp. *)
Definition quad_of (e : elem content) : elem quad_data := Elem (e_id e) (QData (det_j (co_bounds (e_data e))) (map ip_weight (co_points (e_data e)))).
Definition quad_store (s : store content) : store quad_data := Store (map quad_of (st_untrimmed s)) (map quad_of (st_trimmed s)) (st_map s).
Definition make_info (volume quality : R) (s : store content) : info :=
  let q := quad_store s in
  let active := num_active s in
  let trimmed := num_trimmed s in
  let full := (active - trimmed)%nat in
  Info volume (rltb quality (/ 10 ^ 10)) active trimmed full (num_elements (gi_grid gi) - active)
    (tot_points_trimmed q + tot_points_full q) (represented_volume q)
    (if Req_EM_T volume 0 then None else Some (represented_volume q / volume * 100))
    (if (0 <? full)%nat then INR (tot_points_full q) / INR full else 0)
    (if (0 <? trimmed)%nat then INR (tot_points_trimmed q) / INR trimmed else 0).

(** ComputeVolume, embedded_model.cpp:27-195, with the partial sums [chunks] of VolumeOMP and the order [order] of the iterations. *)
Definition compute_volume (chunks : list (list nat)) (order : list nat) : res (info * store content) :=
  match mesh_volume_omp chunks src, estimate_quality src, and_then (visit src) (fun tris => make_query junk tris true) with
  | Some volume, Some quality, Some g =>
      match create_elements g order with
      | Ok s => match finish_elements s with
                | Ok s => Ok (make_info volume quality s, s)
                | Undefined => Undefined
                | OutOfFuel => OutOfFuel
                end
      | Undefined => Undefined
      | OutOfFuel => OutOfFuel
      end
  | _, _, _ => Undefined
  end.
End Volume.
