(** Model of the quadrature of trimmed elements: distribution of candidate points, moments, moment fitting and point
    elimination. Source: /repo/queso/quadrature/trimmed_element.hpp, embedding/element_builders.hpp.
    Simplifications: double is R (in particular no NaN and no infinities); echo output is dropped; the 1D tables of
    polynomial values are inlined and the loops over rows and points are interchanged (same sum for each row).
    Parameters here: the non-negative least squares solver (solvers/nnls.cpp; it is modelled in NnlsModel and plugged in by
    NnlsProps), the order in which std::sort leaves points of equal weight, and the geometric queries of the domain. *)
From Coq Require Import Arith NArith Reals List Bool.
From Verif Require Import Geo GridStoreModel GgqModel Ggq1dModel GaussModel MappingModel PolyModel OctreeModel.
Import ListNotations.
Local Open Scope R_scope.

(** rows of the moment fitting equation: order of the three nested loops, trimmed_element.hpp:292-306 and 349-360. *)
Definition rows (o : nat * nat * nat) : list (nat * nat * nat) :=
  let '(ou, ov, ow) := o in
  flat_map (fun i => flat_map (fun j => map (fun k => (i, j, k)) (seq 0 (ow + 1))) (seq 0 (ov + 1))) (seq 0 (ou + 1)).
(** number_of_functions, trimmed_element.hpp:399-400 (also 195, 248, 336). *)
Definition number_of_functions (o : nat * nat * nat) : nat := let '(ou, ov, ow) := o in ((ou + 1) * (ov + 1) * (ow + 1))%nat.
(** min_number_of_points, trimmed_element.hpp:401. *)
Definition min_number_of_points (o : nat * nat * nat) : nat := let '(ou, ov, ow) := o in (ou * ov * ow)%nat.
(** product of the three shape functions at a point, trimmed_element.hpp:352-354. *)
Definition shape (b : box) (r : nat * nat * nat) (p : pt) : R :=
  let '(i, j, k) := r in
  f_x (px p) i (px (lower b)) (px (upper b)) * f_x (py p) j (py (lower b)) (py (upper b)) * f_x (pz p) k (pz (lower b)) (pz (upper b)).

(** the vector that is contracted with the normal, trimmed_element.hpp:296-299. *)
Definition flux (b : box) (r : nat * nat * nat) (p : pt) : pt :=
  let '(i, j, k) := r in
  let ax := px (lower b) in let bx := px (upper b) in let ay := py (lower b) in let by_ := py (upper b) in let az := pz (lower b) in let bz := pz (upper b) in
  Pt (f_x_int (px p) i ax bx * f_x (py p) j ay by_ * f_x (pz p) k az bz)
     (f_x (px p) i ax bx * f_x_int (py p) j ay by_ * f_x (pz p) k az bz)
     (f_x (px p) i ax bx * f_x (py p) j ay by_ * f_x_int (pz p) k az bz).
(** integrand, trimmed_element.hpp:301. *)
Definition dot (n v : pt) : R := px n * px v + py n * py v + pz n * pz v.
(** ComputeConstantTerms from boundary points, trimmed_element.hpp:229-308; [b]: cell box in global space. *)
Definition constant_term (b : box) (bps : list bpoint) (r : nat * nat * nat) : R :=
  fold_left (fun acc q => acc + dot (bp_normal q) (flux b r (bp_pos q)) * (1 / 3 * bp_weight q)) bps 0.
Definition constant_terms (b : box) (bps : list bpoint) (o : nat * nat * nat) : list R := map (constant_term b bps) (rows o).
(** ComputeConstantTerms from volume points, trimmed_element.hpp:179-220; [b]: cell box in parametric space. *)
Definition constant_terms_volume (b : box) (ips : list ipoint) (o : nat * nat * nat) : list R :=
  map (fun r => fold_left (fun acc q => acc + shape b r (ip_pos q) * ip_weight q) ips 0) (rows o).

(** l2_norm_ct, trimmed_element.hpp:340-341. *)
Definition l2 (v : list R) : R := sqrt (fold_left (fun acc x => acc + x * x) v 0).

(** result of a computation that may run into undefined behaviour or exhaust the iteration bound of the model *)
Inductive res (A : Type) := Ok (a : A) | Undefined | OutOfFuel.
Arguments Ok {A} a. Arguments Undefined {A}. Arguments OutOfFuel {A}.

Section TrimmedQuad.
(** NNLS::solve(A, b, x): columns of the matrix and right-hand side to weights and residual norm. *)
Variable nnls : list (list R) -> list R -> list R * R.
(** std::sort by decreasing weight, trimmed_element.hpp:419-425. *)
Variable sort : list ipoint -> list ipoint.
(** IsInsideActiveDomain<global>, GetIntersectionState<global> of the trimmed domain. *)
Variable inside : pt -> bool.
Variable state : box -> istate.
(** MIND and MAXD, includes/core_definitions.hpp:56-58. *)
Variables mind maxd : R.
(** bounds of the cell, integration order, Residual (= moment_fitting_residual). *)
Variable cb : ebounds.
Variable o : nat * nat * nat.
Variable target : R.

(** one column of the fitting matrix, trimmed_element.hpp:347-360. *)
Definition column (q : ipoint) : list R := map (fun r => shape (eb_param cb) r (ip_pos q)) (rows o).
(** the loop that writes the weights, trimmed_element.hpp:369-374. The weights vector has one entry per point (a missing
    one would be the 0.0 of the value-initialised vector). *)
Fixpoint set_weights (pts : list ipoint) (ws : list R) : list ipoint :=
  match pts with
  | [] => []
  | q :: pts' => IP (ip_pos q) (hd 0 ws / det_j cb) :: set_weights pts' (tl ws)
  end.
(** MomentFitting, trimmed_element.hpp:318-377. *)
Definition moment_fitting (ct : list R) (pts : list ipoint) : list ipoint * R :=
  let '(ws, rnorm) := nnls (map column pts) ct in (set_weights pts ws, rnorm / l2 ct).

(** removal of the points with Weight() < t by erase/remove_if, trimmed_element.hpp:433-440, 469-476, 499-506, 512-519. *)
Definition drop_below (t : R) (pts : list ipoint) : list ipoint := List.filter (fun q => if Rlt_dec (ip_weight q) t then false else true) pts.
(** the search for the smallest and the largest weight, trimmed_element.hpp:453-464: index and value of the minimum, maximum. *)
Fixpoint min_max (i : nat) (pts : list ipoint) (acc : nat * R * R) : nat * R * R :=
  match pts with
  | [] => acc
  | q :: pts' =>
      let '(mi, mv, xv) := acc in
      let '(mi, mv) := if Rlt_dec (ip_weight q) mv then (i, ip_weight q) else (mi, mv) in
      let xv := if Rlt_dec xv (ip_weight q) then ip_weight q else xv in
      min_max (S i) pts' (mi, mv, xv)
  end.
(** vector::erase(begin + i) *)
Definition erase_at (i : nat) (pts : list ipoint) : list ipoint := firstn i pts ++ skipn (S i) pts.

(** local variables of PointElimination, trimmed_element.hpp:403-409 and rIntegrationPoint. *)
Record pe := PE { pe_pts : list ipoint; pe_global : R; pe_prev_res : R; pe_iter : N; pe_elim : bool; pe_prev : list ipoint }.
(** maximum_iteration, trimmed_element.hpp:406. *)
Definition maximum_iteration : N := 1000.
(** loop condition, trimmed_element.hpp:413. *)
Definition below_target (r : R) : bool := if Rlt_dec r target then true else false.
Definition pe_continue (s : pe) : bool := pe_elim s || (below_target (pe_global s) && (pe_iter s <? maximum_iteration)%N).
(** loop body, trimmed_element.hpp:414-491. true: next iteration, false: break. *)
Definition pe_body (ct : list R) (s : pe) : res (bool * pe) :=
  let '(pts, r) := moment_fitting ct (pe_pts s) in
  if (pe_iter s =? 0)%N then
    let sorted := sort pts in
    if (length sorted <? number_of_functions o)%nat then Undefined (* erase(begin() + number_of_functions, end()) *)
    else
      let pts := drop_below zerotol (firstn (number_of_functions o) sorted) in
      match pts with
      | [] => Ok (false, PE pts r (pe_prev_res s) (pe_iter s) false (pe_prev s))
      | _ => Ok (true, PE pts r (pe_prev_res s) (pe_iter s + 1) true (pe_prev s))
      end
  else if below_target r && (pe_iter s <? maximum_iteration)%N then
    let '(mi, _, xv) := min_max 0 pts (0%nat, maxd, - maxd) in
    let kept := drop_below (/ 10 ^ 8 * xv) pts in
    let eliminated := negb (length kept =? length pts)%nat in
    let one_more := negb eliminated && (min_number_of_points o <? length kept)%nat in
    let kept := if one_more then erase_at mi kept else kept in
    let iter := if (length kept <=? min_number_of_points o)%nat then (maximum_iteration + 10)%N else pe_iter s in
    Ok (true, PE kept r r (iter + 1) (eliminated || one_more) pts)
  else Ok (true, PE pts r (pe_prev_res s) (pe_iter s + 1) false (pe_prev s)).
Fixpoint pe_loop (fuel : nat) (ct : list R) (s : pe) : res pe :=
  if pe_continue s then
    match fuel with
    | O => OutOfFuel
    | S fuel' =>
        match pe_body ct s with
        | Ok (true, s') => pe_loop fuel' ct s'
        | Ok (false, s') => Ok s'
        | Undefined => Undefined
        | OutOfFuel => OutOfFuel
        end
    end
  else Ok s.
(** the code after the loop, trimmed_element.hpp:494-522: points written to the element (in front of its points [elem])
    and returned residual. *)
Definition pe_finish (elem : list ipoint) (s : pe) : list ipoint * R :=
  if (negb (below_target (pe_global s)) && negb (length (pe_prev s) =? 0)%nat) || (maximum_iteration <? pe_iter s)%N
  then (drop_below zerotol (pe_prev s ++ elem), pe_prev_res s)
  else (drop_below zerotol (pe_pts s ++ elem), pe_global s).
(** PointElimination, trimmed_element.hpp:386-523: points of the element, residual, and the new value of the reference
    parameter rIntegrationPoint. The fuel is the number of points plus four; [TrimmedQuadProofs] shows it suffices. *)
Definition point_elimination (ct : list R) (pts elem : list ipoint) : res (list ipoint * R * list ipoint) :=
  match pe_loop (length pts + 4) ct (PE pts mind 0 0 false []) with
  | Ok s => let '(out, r) := pe_finish elem s in Ok (out, r, pe_pts s)
  | Undefined => Undefined
  | OutOfFuel => OutOfFuel
  end.

(** the loop of DistributeIntegrationPoints, trimmed_element.hpp:165-171; [n]: iterations left. None: undefined behaviour or
    an exception. *)
Fixpoint distribute_loop (n : nat) (minnum lvl : nat) (pts : list ipoint) (oct : octree) : option (list ipoint * octree) :=
  if (length pts <? minnum)%nat then
    match n with
    | O => Some (pts, oct)
    | S n' =>
        match octree_refine state (Nat.min lvl 4) lvl oct with
        | None => None
        | Some oct' =>
            match add_points inside o oct' [] with
            | None => None
            | Some pts' => distribute_loop n' minnum (S lvl) pts' oct'
            end
        end
    end
  else Some (pts, oct).
(** DistributeIntegrationPoints, trimmed_element.hpp:155-172. *)
Definition distribute (minnum : nat) (pts : list ipoint) (oct : octree) : option (list ipoint * octree) :=
  distribute_loop 5 minnum (o_max oct + 1) pts oct.

(** the loop of AssembleIPs, trimmed_element.hpp:97-130; [n]: iterations left, [fac]: point_distribution_factor. The result
    is the points of the element, the residual and a flag that tells whether the function returned inside the loop. *)
Fixpoint assemble_loop (n : nat) (ct : list R) (residual : R) (fac : nat) (pts elem : list ipoint) (oct : octree) : res (list ipoint * R * bool) :=
  if Rlt_dec target residual then
    match n with
    | O => Ok (elem, residual, false)
    | S n' =>
        match distribute (number_of_functions o * fac) pts oct with
        | None => Undefined
        | Some ([], _) => Ok ([], 1, true)
        | Some (pts', oct') =>
            match point_elimination ct (pts' ++ elem) [] with
            | Ok (elem', residual', pts'') =>
                let elem' := if Rlt_dec (/ 10 ^ 2) residual' then [] else elem' in
                assemble_loop n' ct residual' (2 * fac) pts'' elem' oct'
            | Undefined => Undefined
            | OutOfFuel => OutOfFuel
            end
        end
    end
  else Ok (elem, residual, false).

(** the three nested loops of AssembleFictitiousIPs, trimmed_element.hpp:544-564. IsInsideActiveDomain<parametric> maps the
    point to global space with the bounds of the cell, embedding/trimmed_domain.h. *)
Definition fictitious_loops (alpha : R) (u v w : rule) : list ipoint :=
  let lo := lower (eb_param cb) in let up := upper (eb_param cb) in
  let lu := px up - px lo in let lv := py up - py lo in let lw := pz up - pz lo in
  let scaled := lu * lv * lw * alpha in
  flat_map (fun a => flat_map (fun b => flat_map (fun c =>
    let q := Pt (px lo + lu * fst a) (py lo + lv * fst b) (pz lo + lw * fst c) in
    if inside (to_global q cb) then [] else [IP q (snd a * snd b * snd c * scaled)]) w) v) u.
(** AssembleFictitiousIPs, trimmed_element.hpp:529-565. None: a table is read outside its bounds. *)
Definition fictitious (alpha : R) (elem : list ipoint) : option (list ipoint) :=
  let '(ou, ov, ow) := o in
  match get_gauss ou Gauss, get_gauss ov Gauss, get_gauss ow Gauss with
  | Some u, Some v, Some w => Some (elem ++ fictitious_loops alpha (real_rule u) (real_rule v) (real_rule w))
  | _, _, _ => None
  end.

(** max_iteration, trimmed_element.hpp:95. *)
Definition max_iteration : nat := let '(ou, ov, ow) := o in if (Nat.max ou (Nat.max ov ow) =? 2)%nat then 4 else 3.
(** GetActiveDomainBounds<parametric>, containers/element_base.hpp:137-140 and embedding/trimmed_domain.h: the global bounds
    [X] of the trimmed domain mapped to parametric space. *)
Definition active_param (X : box) : box := Box (to_parametric (lower X) cb) (to_parametric (upper X) cb).
(** AssembleIPs for a new element, trimmed_element.hpp:66-139. *)
Definition assemble_ips_trimmed (bps : list bpoint) (X : box) (alpha : option R) : res (list ipoint * R) :=
  let ct := constant_terms (eb_global cb) bps o in
  match assemble_loop max_iteration ct maxd 1 [] [] (octree_new X (active_param X)) with
  | Ok (elem, r, true) => Ok (elem, r)
  | Ok (elem, r, false) =>
      match alpha with
      | None => Ok (elem, r)
      | Some al => match fictitious al elem with Some e => Ok (e, r) | None => Undefined end
      end
  | Undefined => Undefined
  | OutOfFuel => OutOfFuel
  end.
(** TrimmedElementBuilder::Build, embedding/element_builders.hpp:111-132; [domain]: boundary points and bounds of the trimmed
    domain if the BRep operator returned one. The element is represented by its points. *)
Definition build_trimmed (domain : option (list bpoint * box)) (alpha : option R) : res (option (list ipoint)) :=
  match domain with
  | None => Ok None
  | Some (bps, X) =>
      match assemble_ips_trimmed bps X alpha with
      | Ok ([], _) => Ok None
      | Ok (pts, _) => Ok (Some pts)
      | Undefined => Undefined
      | OutOfFuel => OutOfFuel
      end
  end.
End TrimmedQuad.
