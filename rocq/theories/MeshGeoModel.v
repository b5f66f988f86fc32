(** Model of the geometry of triangles and meshes over the reals.
    Source: /repo/queso/utilities/triangle_utilities.hpp, mesh_utilities.cpp and math_utilities.hpp.
    Simplification: double is R (no rounding, no overflow). *)
From Coq Require Import Reals List Arith.
From Verif Require Import Geo MappingModel TrimmedQuadModel MeshModel.
Import ListNotations.
Local Open Scope R_scope.

(** operator+, operator- and operator* of Vector3d, utilities/math_utilities.hpp:92-134. *)
Definition vadd (a b : pt) : pt := Pt (px a + px b) (py a + py b) (pz a + pz b).
Definition vsub (a b : pt) : pt := Pt (px a - px b) (py a - py b) (pz a - pz b).
Definition vscale (s : R) (a : pt) : pt := Pt (s * px a) (s * py a) (s * pz a).
(** Math::Cross, utilities/math_utilities.hpp:58-62. *)
Definition cross (a b : pt) : pt :=
  Pt (py a * pz b - pz a * py b) (pz a * px b - px a * pz b) (px a * py b - py a * px b).

(** TriangleUtilities::Area, triangle_utilities.hpp:33-39. *)
Definition tri_area (t : tri pt) : R := 1/2 * norm (cross (vsub (P2 t) (P1 t)) (vsub (P3 t) (P1 t))).
(** a >= b on double. *)
Definition geb (a b : R) : bool := if Rle_dec b a then true else false.
(** TriangleUtilities::Normal, triangle_utilities.hpp:46-72. *)
Definition tri_normal (t : tri pt) : pt :=
  let A := vsub (P2 t) (P1 t) in
  let B := vsub (P3 t) (P2 t) in
  let C := vsub (P1 t) (P3 t) in
  let la := norm A in
  let lb := norm B in
  let lc := norm C in
  let n := if (geb la (lc - zerotol) && geb lb (lc - zerotol))%bool then cross A B
           else if (geb la (lb - zerotol) && geb lc (lb - zerotol))%bool then cross C A
           else cross B C in
  let m := norm n in
  if Rlt_dec zerotol m then vscale (1 / m) n else Pt 0 0 0.
(** TriangleUtilities::Center, triangle_utilities.hpp:102-111. *)
Definition tri_center (t : tri pt) : pt :=
  Pt (1/3 * (px (P1 t) + px (P2 t) + px (P3 t))) (1/3 * (py (P1 t) + py (P2 t) + py (P3 t)))
     (1/3 * (pz (P1 t) + pz (P2 t) + pz (P3 t))).
(** TriangleUtilities::AspectRatio, triangle_utilities.hpp:79-95. *)
Definition tri_aspect (t : tri pt) : R :=
  let area := tri_area t in
  let a := norm (vsub (P2 t) (P1 t)) in
  let b := norm (vsub (P3 t) (P2 t)) in
  let c := norm (vsub (P1 t) (P3 t)) in
  let max_edge := Rmax (Rmax a b) c in
  if Rlt_dec (/ 10 ^ 14) area then max_edge * (a + b + c) / (4 * (173205080756887729 / 10 ^ 17) * area) else 10 ^ 10.

(** MeshUtilities::Area, mesh_utilities.cpp:186-193; None: undefined behaviour (an index out of range). *)
Definition mesh_area (m : mesh pt) : option R :=
  option_map (fun l => fold_left (fun acc t => acc + tri_area t) l 0) (visit m).
(** The summand of MeshUtilities::Volume, mesh_utilities.cpp:209-212. *)
Definition tri_flux (q : tri pt * pt) : R := dot (snd q) (tri_center (fst q)) * tri_area (fst q).
(** MeshUtilities::Volume, mesh_utilities.cpp:206-214. *)
Definition mesh_volume (m : mesh pt) : option R :=
  option_map (fun l => Rabs (fold_left (fun acc q => acc + tri_flux q) l 0 / 3)) (visit_n m).
(** MeshUtilities::Volume in one direction, mesh_utilities.cpp:229-239. *)
Definition mesh_volume_dir (m : mesh pt) (d : axis) : option R :=
  option_map (fun l => Rabs (fold_left (fun acc q => acc + at_ d (snd q) * at_ d (tri_center (fst q)) * tri_area (fst q)) l 0)) (visit_n m).
(** MeshUtilities::MaxAspectRatio and AverageAspectRatio, mesh_utilities.cpp:241-261; [mind]: MIND. *)
Definition mesh_max_aspect (mind : R) (m : mesh pt) : option R :=
  option_map (fun l => fold_left (fun acc t => Rmax acc (tri_aspect t)) l mind) (visit m).
Definition mesh_average_aspect (m : mesh pt) : option R :=
  if (num_triangles m =? 0)%nat then Some 0
  else option_map (fun l => fold_left (fun acc t => acc + tri_aspect t) l 0 / INR (num_triangles m)) (visit m).

(** MeshUtilities::EstimateQuality, mesh_utilities.cpp:263-293; the sums of the loop first. *)
Definition dir_volume (d : axis) (q : tri pt * pt) : R := at_ d (snd q) * at_ d (tri_center (fst q)) * tri_area (fst q).
Definition dir_area (d : axis) (q : tri pt * pt) : R := tri_area (fst q) * at_ d (snd q).
Definition total (f : tri pt * pt -> R) (l : list (tri pt * pt)) : R := fold_left (fun acc q => acc + f q) l 0.
Definition estimate_quality (m : mesh pt) : option R :=
  option_map (fun l =>
    let v1 := total (dir_volume AX) l in
    let v2 := total (dir_volume AY) l in
    let v3 := total (dir_volume AZ) l in
    let v := Rabs ((v1 + v2 + v3) / 3) in
    let denom := Rmax v (/ 10 ^ 14) in
    let e1 := Rabs (v1 - v) / denom in
    let e2 := Rabs (v2 - v) / denom in
    let e3 := Rabs (v3 - v) / denom in
    let ea := norm (Pt (total (dir_area AX) l) (total (dir_area AY) l) (total (dir_area AZ) l))
              / Rmax (Rabs (total (fun q => tri_area (fst q)) l)) (/ 10 ^ 14) in
    Rmax (Rmax (Rmax e1 e2) e3) ea) (visit_n m).

(** MeshUtilities::BoundingBox, mesh_utilities.cpp:295-320; [maxd], [lowestd]: MAXD and LOWESTD. *)
Definition min3 (a b c : R) : R := Rmin (Rmin a b) c.
Definition max3 (a b c : R) : R := Rmax (Rmax a b) c.
Definition grow_box (b : box) (t : tri pt) : box :=
  Box (Pt (Rmin (min3 (px (P1 t)) (px (P2 t)) (px (P3 t))) (px (lower b)))
          (Rmin (min3 (py (P1 t)) (py (P2 t)) (py (P3 t))) (py (lower b)))
          (Rmin (min3 (pz (P1 t)) (pz (P2 t)) (pz (P3 t))) (pz (lower b))))
      (Pt (Rmax (max3 (px (P1 t)) (px (P2 t)) (px (P3 t))) (px (upper b)))
          (Rmax (max3 (py (P1 t)) (py (P2 t)) (py (P3 t))) (py (upper b)))
          (Rmax (max3 (pz (P1 t)) (pz (P2 t)) (pz (P3 t))) (pz (upper b)))).
Definition mesh_bounding_box (maxd lowestd : R) (m : mesh pt) : option box :=
  option_map (fun l => fold_left grow_box l (Box (Pt maxd maxd maxd) (Pt lowestd lowestd lowestd))) (visit m).

(** MeshUtilities::MakeMeshBox, mesh_utilities.cpp:152-184. *)
Definition mesh_box (lo up : pt) : mesh pt :=
  let m := fold_left (fun m v => fst (add_vertex m v))
    [ Pt (px lo) (py lo) (pz lo); Pt (px up) (py lo) (pz lo); Pt (px lo) (py up) (pz lo); Pt (px up) (py up) (pz lo);
      Pt (px lo) (py lo) (pz up); Pt (px up) (py lo) (pz up); Pt (px lo) (py up) (pz up); Pt (px up) (py up) (pz up) ] empty_mesh in
  fold_left (fun m q => add_triangle m (fst q) (snd q))
    [ ((0, 6, 2)%nat, Pt (-1) 0 0); ((0, 4, 6)%nat, Pt (-1) 0 0);
      ((1, 7, 5)%nat, Pt 1 0 0); ((1, 3, 7)%nat, Pt 1 0 0);
      ((4, 1, 5)%nat, Pt 0 (-1) 0); ((4, 0, 1)%nat, Pt 0 (-1) 0);
      ((6, 7, 3)%nat, Pt 0 1 0); ((6, 3, 2)%nat, Pt 0 1 0);
      ((1, 0, 3)%nat, Pt 0 0 (-1)); ((0, 2, 3)%nat, Pt 0 0 (-1));
      ((4, 5, 7)%nat, Pt 0 0 1); ((4, 7, 6)%nat, Pt 0 0 1) ] m.

(** The local variables of one pass of Refine: the new mesh and the map from edges to midpoint
    vertices, mesh_utilities.cpp:45-51. The std::map with std::pair keys is an association list
    with unique keys. *)
Definition cache := list ((nat * nat) * nat).
Fixpoint lookup (k : nat * nat) (c : cache) : option nat :=
  match c with
  | [] => None
  | (k', v) :: c => if ((fst k =? fst k') && (snd k =? snd k'))%nat%bool then Some v else lookup k c
  end.
(** The lambda midpoint_id, mesh_utilities.cpp:52-66. *)
Definition midpoint_id (old : list pt) (s : mesh pt * cache) (i j : nat) : option (mesh pt * cache * nat) :=
  let '(m, c) := s in
  let k := if (j <? i)%nat then (j, i) else (i, j) in
  match lookup k c with
  | Some id => Some (m, c, id)
  | None =>
      match nth_error old (fst k), nth_error old (snd k) with
      | Some a, Some b =>
          let '(m', id) := add_vertex m (vscale (1/2) (vadd a b)) in
          Some (m', (k, id) :: c, id)
      | _, _ => None
      end
  end.
(** The body of the loop over the triangles, mesh_utilities.cpp:69-88. *)
Definition split_one (threshold : R) (old : mesh pt) (s : mesh pt * cache * bool) (tid : nat) : option (mesh pt * cache * bool) :=
  let '(m, c, did_split) := s in
  match nth_error (m_triangles old) tid, triangle old tid, nth_error (m_normals old) tid with
  | Some (i, j, k), Some proxy, Some n =>
      if Rlt_dec threshold (tri_area proxy) then
        match midpoint_id (m_vertices old) (m, c) i j with
        | None => None
        | Some (m, c, e1) =>
            match midpoint_id (m_vertices old) (m, c) j k with
            | None => None
            | Some (m, c, e2) =>
                match midpoint_id (m_vertices old) (m, c) k i with
                | None => None
                | Some (m, c, e3) =>
                    let m := add_triangle m (i, e1, e3) n in
                    let m := add_triangle m (e1, j, e2) n in
                    let m := add_triangle m (e2, k, e3) n in
                    let m := add_triangle m (e1, e2, e3) n in
                    Some (m, c, true)
                end
            end
        end
      else Some (add_triangle m (i, j, k) n, c, did_split)
  | _, _, _ => None
  end.
(** A loop with early exit on undefined behaviour. *)
Fixpoint fold_opt {A B} (f : A -> B -> option A) (l : list B) (a : A) : option A :=
  match l with
  | [] => Some a
  | x :: l => match f a x with None => None | Some a' => fold_opt f l a' end
  end.
(** The largest area, mesh_utilities.cpp:31-34. *)
Definition max_area (l : list (tri pt)) : R := fold_left (fun acc t => Rmax acc (tri_area t)) l 0.
(** One pass of the loop of Refine, mesh_utilities.cpp:31-94; the flag is false if the loop is left. *)
Definition refine_pass (m : mesh pt) : option (mesh pt * bool) :=
  match visit m with
  | None => None
  | Some l =>
      let a := max_area l in
      if Rle_dec a zerotol then Some (m, false)
      else
        let refined := fold_left (fun r v => fst (add_vertex r v)) (m_vertices m) empty_mesh in
        match fold_opt (split_one (9/10 * a) m) (seq 0 (num_triangles m)) (refined, [], false) with
        | None => None
        | Some (r, _, did_split) => if did_split then Some (r, true) else Some (m, false)
        end
  end.
(** Refine, mesh_utilities.cpp:28-96, with a bound on the number of passes. *)
Fixpoint refine_loop (fuel : nat) (m : mesh pt) (min : nat) : res (mesh pt) :=
  if (num_triangles m <? min)%nat then
    match fuel with
    | O => OutOfFuel
    | S fuel =>
        match refine_pass m with
        | None => Undefined
        | Some (m', true) => refine_loop fuel m' min
        | Some (m', false) => Ok m'
        end
    end
  else Ok m.
Definition refine (m : mesh pt) (min : nat) : res (mesh pt) := refine_loop (S min) m min.

(** static_cast<int> of a size_t (32 bit, two's complement), mesh_utilities.cpp:200 and 221. *)
Definition int_of_size (n : N) : Z :=
  let r := Z.modulo (Z.of_N n) (2 ^ 32) in
  if Z.ltb r (2 ^ 31) then r else Z.sub r (2 ^ 32).
(** #pragma omp parallel for reduction(+), mesh_utilities.cpp:199 and 220: each chunk of the indices is
    summed on its own, the partial sums are added in some order. Which chunks there are and in which order
    their sums are added is up to the OpenMP runtime: [chunks] ranges over all possibilities. *)
Definition chunk_sum {A} (f : A -> R) (l : list A) : R := fold_left (fun acc a => acc + f a) l 0.
Definition reduction {A} (f : A -> R) (chunks : list (list A)) : R := fold_left (fun acc c => acc + chunk_sum f c) chunks 0.
(** The iterations of the loop: the indices below static_cast<int>(num_triangles). *)
Definition omp_indices (m : mesh pt) : list nat := seq 0 (Z.to_nat (int_of_size (N.of_nat (num_triangles m)))).
Definition visit_chunks {A} (get : nat -> option A) (chunks : list (list nat)) : option (list (list A)) :=
  fold_right (fun c acc => match visit_list get c, acc with Some x, Some y => Some (x :: y) | _, _ => None end) (Some []) chunks.
(** AreaOMP and VolumeOMP, mesh_utilities.cpp:195-204 and 216-227. *)
Definition mesh_area_omp (chunks : list (list nat)) (m : mesh pt) : option R :=
  option_map (reduction tri_area) (visit_chunks (triangle m) chunks).
Definition mesh_volume_omp (chunks : list (list nat)) (m : mesh pt) : option R :=
  option_map (fun c => Rabs (reduction tri_flux c / 3)) (visit_chunks (triangle_n m) chunks).
