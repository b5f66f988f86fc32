(** Model of the B-spline volume that belongs to a background grid.
    Source: /repo/queso/python/scripts/b_spline_volume.py.
    Simplifications: floats are R.  numpy and scipy are not part of the repository; the functions that are used (arange, the
    constructor of scipy.interpolate.BSpline, scipy.interpolate.insert) are modelled by their documented behaviour.
    None is a Python exception. *)
From Coq Require Import Reals List Arith Bool ZArith.
From Verif Require Import Geo GridModel GridGeoModel.
Import ListNotations.
Local Open Scope R_scope.

Definition rle (a b : R) : bool := if Rle_dec a b then true else false.
(** The smallest integer that is not smaller than x. *)
Definition ceil (x : R) : Z := (1 - up (- x))%Z.
(** numpy.arange(start, stop, step): start + i * step for i below ceil((stop - start) / step); a step of zero raises. *)
Definition arange (start stop step : R) : option (list R) :=
  if Req_EM_T step 0 then None
  else Some (map (fun i => start + INR i * step) (seq 0 (Z.to_nat (ceil ((stop - start) / step))))).

(** scipy.interpolate.BSpline: knots t, coefficients c (there may be more of them than needed), degree k. *)
Record bspline := BSpline { bs_t : list R; bs_c : list R; bs_k : nat }.
(** The number of coefficients that count. *)
Definition bs_n (t : list R) (k : nat) : nat := length t - k - 1.
Fixpoint nondecreasing (t : list R) : bool := match t with a :: ((b :: _) as r) => rle a b && nondecreasing r | _ => true end.
(** The checks of the constructor: at least 2k+2 knots, in order, a domain that is not a point, enough coefficients. *)
Definition make_bspline (t c : list R) (k : nat) : option bspline :=
  let n := bs_n t k in
  if (2 * k + 2 <=? length t)%nat && nondecreasing t && negb (rle (nth n t 0) (nth k t 0)) && (n <=? length c)%nat then Some (BSpline t c k) else None.

Section Insert.
(** scipy appends entries to the coefficients that have no meaning; they are arbitrary here. *)
Variable pad : list R -> list R.
(** scipy.interpolate.insert(x, spline) (Boehm's algorithm, FITPACK): l is the last knot that is not larger than x. *)
Definition knot_index (t : list R) (x : R) : nat := pred (length (List.filter (fun y => rle y x) t)).
Definition inserted_c (t c : list R) (k l : nat) (x : R) (i : nat) : R :=
  let w := (x - nth i t 0) / (nth (i + k) t 0 - nth i t 0) in
  if (i + k <=? l)%nat then nth i c 0
  else if (i <=? l)%nat then w * nth i c 0 + (1 - w) * nth (i - 1) c 0
  else nth (i - 1) c 0.
Definition insert_knot (x : R) (s : bspline) : option bspline :=
  let t := bs_t s in let k := bs_k s in let n := bs_n t k in
  if rle (nth k t 0) x && rle x (nth n t 0) then
    let l := knot_index t x in
    let c := map (inserted_c t (bs_c s) k l x) (seq 0 (n + 1)) in
    make_bspline (firstn (l + 1) t ++ x :: skipn (l + 1) t) (c ++ pad c) k
  else None.
(** The loop over the knots to insert, b_spline_volume.py:216-219. *)
Fixpoint insert_all (xs : list R) (s : bspline) : option bspline :=
  match xs with [] => Some s | x :: xs => match insert_knot x s with Some s => insert_all xs s | None => None end end.

(** _construct_b_spline, b_spline_volume.py:174-224. *)
Definition first_knots (p n : nat) (lu uu : R) (open : bool) : list R :=
  let du := (uu - lu) / INR n in
  if open then repeat lu (p + 1) ++ repeat uu (p + 1)
  else map (fun i => lu - (INR p - INR i) * du) (seq 0 (p + 1)) ++ map (fun i => uu + INR i * du) (seq 0 (p + 1)).
Definition construct (p n : nat) (lx ux lu uu : R) (open : bool) : option bspline :=
  if (n =? 0)%nat || (p =? 0)%nat then None
  else
    let du := (uu - lu) / INR n in
    let dx := (ux - lx) / INR p in
    let center := (ux + lx) / 2 in
    match arange lx (ux + (1/2) * dx) dx with
    | None => None
    | Some cps =>
      let cps := if open then cps else map (fun v => v - (INR p - 1) * (center - v) / INR n) cps in
      match make_bspline (first_knots p n lu uu open) cps p with
      | None => None
      | Some s =>
        match arange (lu + du) (uu - (1/2) * du) du with
        | None => None
        | Some xs =>
          match insert_all xs s with
          | None => None
          | Some s => Some (BSpline (bs_t s) (firstn (length (bs_t s) - p - 1) (bs_c s)) (bs_k s))
          end
        end
      end
    end.

(** BSplineVolume.__init__, b_spline_volume.py:24-44: one spline for each direction. *)
Definition spline_of (gi : indexer) (orders : axis -> nat) (open : bool) (a : axis) : option bspline :=
  construct (orders a) (n_at a (gi_grid gi)) (at_ a (lower (gi_xyz gi))) (at_ a (upper (gi_xyz gi))) (at_ a (lower (gi_uvw gi))) (at_ a (upper (gi_uvw gi))) open.
Record volume := Volume { spline_u : bspline; spline_v : bspline; spline_w : bspline }.
Definition make_volume (gi : indexer) (orders : axis -> nat) (open : bool) : option volume :=
  match spline_of gi orders open AX, spline_of gi orders open AY, spline_of gi orders open AZ with
  | Some u, Some v, Some w => Some (Volume u v w)
  | _, _, _ => None
  end.
End Insert.
(** ControlPoints, b_spline_volume.py:84-89. *)
Definition control_points (v : volume) : list pt :=
  flat_map (fun z => flat_map (fun y => map (fun x => Pt x y z) (bs_c (spline_u v))) (bs_c (spline_v v))) (bs_c (spline_w v)).
(** ControlPointsMatrix, b_spline_volume.py:105-116: the entry of the array; None is an index out of range. *)
Definition control_matrix (v : volume) (i j k : nat) : option pt :=
  match nth_error (bs_c (spline_u v)) i, nth_error (bs_c (spline_v v)) j, nth_error (bs_c (spline_w v)) k with
  | Some x, Some y, Some z => Some (Pt x y z)
  | _, _, _ => None
  end.
