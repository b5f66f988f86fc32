(** Model of the construction of the one-dimensional generalized Gauss rules and of the selection of the Gauss rules.
    Source: /repo/queso/quadrature/integration_points_1d/integration_points_factory_1d.cpp (and .h).
    Simplifications (whole file): double is an exact rational (the decimal literals of the tables are taken literally and
    all operations are exact); a read or write outside an array is None (undefined behaviour in the C++), as is an index
    outside a table; SizeType is nat (no wrap-around; the subtractions p-r, e-1, d-2 are only used for e >= 1, d >= 2). *)
From Coq Require Import Arith List Bool QArith Qround.
From Verif Require Import GaussTable GgqTableOptimal GgqTableReduced1 GgqTableReduced2.
Import ListNotations.
Local Open Scope nat_scope.

(** the three GGQ members of IntegrationMethod, includes/core_definitions.hpp *)
Inductive ggq := Optimal | Reduced1 | Reduced2.
(** Ip1DVectorType: (position, weight), integration_points_factory_1d.h:46. *)
Definition qrule := list (Q * Q).

(** GetSpaceDimension, integration_points_factory_1d.cpp:142-155: (degree, continuity). *)
Definition space_dimension (d : nat) (meth : ggq) : nat * nat :=
  match meth with
  | Optimal => (2 * d, d - 2)
  | Reduced1 => (2 * d - 1, d - 2)
  | Reduced2 => (2 * d - 2, d - 2)
  end.

(** number of dofs n and of points m, integration_points_factory_1d.cpp:42-43 and 165-166. *)
Definition num_dofs (p r e : nat) : nat := (p + 1) * 2 + (e - 1) * (p - r) - p - 1.
Definition ceil_half (n : nat) : nat := (n + 1) / 2.

(** mBasePointsOptimal / Reduced1 / Reduced2 as initialised in precomputed_ggq_rules_optimal.cpp:341-354,
    _reduced1.cpp:249-262, _reduced2.cpp:349-362: (even, odd) by degree - 2. *)
Definition base_tables (meth : ggq) : list (list qrule * list qrule) :=
  match meth with
  | Optimal => [(S_4_0_base_even, S_4_0_base_odd); (S_6_1_base_even, S_6_1_base_odd); (S_8_2_base_even, S_8_2_base_odd)]
  | Reduced1 => [(S_3_0_base_even, S_3_0_base_odd); (S_5_1_base_even, S_5_1_base_odd); (S_7_2_base_even, S_7_2_base_odd)]
  | Reduced2 => [(S_2_0_base_even, S_2_0_base_odd); (S_4_1_base_even, S_4_1_base_odd); (S_6_2_base_even, S_6_2_base_odd)]
  end.
(** mPrecomputedPoints..., precomputed_ggq_rules_optimal.cpp:4812-4817, _reduced1.cpp:3500-3506, _reduced2.cpp:3717-3723. *)
Definition precomputed_tables (meth : ggq) : list (list qrule) :=
  match meth with
  | Optimal => [S_4_0_precomputed; S_6_1_precomputed; S_8_2_precomputed]
  | Reduced1 => [S_3_0_precomputed; S_5_1_precomputed; S_7_2_precomputed]
  | Reduced2 => [S_2_0_precomputed; S_4_1_precomputed; S_6_2_precomputed]
  end.

(** GetGGQBasePoints, integration_points_factory_1d.cpp:157-209. *)
Definition base_points (d e : nat) (meth : ggq) : option (list qrule) :=
  let '(p, r) := space_dimension d meth in
  let m := ceil_half (num_dofs p r e) in
  let pick b := option_map (fun t => if b : bool then snd t else fst t) (nth_error (base_tables meth) (d - 2)) in
  if (p =? 4) && (r =? 0) then Some (if e mod 2 =? 0 then S_4_0_base_even else S_4_0_base_odd)
  else if (p =? 6) && (r =? 2) then Some (if e mod 2 =? 0 then S_6_2_base_even else S_6_2_base_odd)
  else if (p =? 4) && (r =? 1) then
    if e mod 2 =? 0 then pick (m mod 2 =? 1)
    else Some (if m mod 2 =? 1 then S_4_1_base_odd else S_4_1_base_even_2)
  else pick (m mod 2 =? 1).

(** std::copy_n( src, ..., dst.begin()+i ) on a vector; None: write behind the end. *)
Definition copy_at (dst : qrule) (i : nat) (src : qrule) : option qrule :=
  if i + length src <=? length dst then Some (firstn i dst ++ src ++ skipn (i + length src) dst) else None.

(** rValue[0] += a *)
Definition shift (a : Q) (l : qrule) : qrule := map (fun q => (fst q + a, snd q)%Q) l.
Definition ofnat (n : nat) : Q := inject_Z (Z.of_nat n).
(** static_cast<SizeType>( std::ceil(x) ) *)
Definition ceil_nat (x : Q) : nat := Z.to_nat (Qceiling x).

(** while( ii < z ), integration_points_factory_1d.cpp:62-68 and 95-101. None: write behind the end or fuel exhausted. *)
Fixpoint fill_loop (fuel ii z left right : nat) (b1 : qrule) (a : qrule) : option qrule :=
  if ii <? z then
    match fuel with
    | 0 => None
    | S fuel' =>
        match copy_at a ii (shift (ofnat left) b1) with
        | None => None
        | Some a' => fill_loop fuel' (ii + length b1) z (left + right) right b1 a'
        end
    end
  else Some a.

(** std::reverse_copy of the first z points to the last z, and rValue[0] = e - rValue[0],
    integration_points_factory_1d.cpp:69-70 and 106-107. For an odd number of points source and destination overlap in
    the middle point, which is copied onto itself first. *)
Definition mirror (e z : nat) (a : qrule) : option qrule :=
  if z <=? length a then
    Some (firstn (length a - z) a ++ map (fun q => (ofnat e - fst q, snd q)%Q) (rev (firstn z a)))
  else None.

(** back()[0] of a table row; None: empty *)
Definition back_x (l : qrule) : option Q := option_map fst (nth_error l (length l - 1)).

(** The constructed rule before scaling, integration_points_factory_1d.cpp:56-70 (2m = n, no center points) and 89-107. *)
Definition construct (m e : nat) (b0 b1 b2 : qrule) : option qrule :=
  let z := ceil_half m in
  match copy_at (repeat (0%Q, 0%Q) m) 0 b0, back_x b0, back_x b1 with
  | Some a0, Some x0, Some x1 =>
      match fill_loop (S z) (length b0) z (ceil_nat x0) (ceil_nat x1) b1 a0 with
      | None => None
      | Some a1 =>
          if length b2 <=? z then
            match copy_at a1 (z - length b2) (shift (ofnat e / 2) b2) with
            | None => None
            | Some a2 => mirror e z a2
            end
          else None
      end
  | _, _, _ => None
  end.

(** scaling to (0,1), integration_points_factory_1d.cpp:124-127. *)
Definition scale (e : nat) (l : qrule) : qrule := map (fun q => (fst q * / ofnat e, snd q * / ofnat e)%Q) l.

(** GetGGQ, integration_points_factory_1d.cpp:32-129. *)
Definition get_ggq (d e : nat) (meth : ggq) : option qrule :=
  let '(p, r) := space_dimension d meth in
  let n := num_dofs p r e in
  let m := ceil_half n in
  match base_points d e meth with
  | Some [b0; b1; b2] =>
      let precomputed :=
        match nth_error (precomputed_tables meth) (d - 2) with None => None | Some t => nth_error t (e - 1) end in
      if 2 * m =? n then
        if 2 * length b0 <? m then option_map (scale e) (construct m e b0 b1 []) else precomputed
      else
        if 2 * (length b0 + length b2) - 1 <? m then option_map (scale e) (construct m e b0 b1 b2) else precomputed
  | _ => None
  end.

(** the Gauss members of IntegrationMethod *)
Inductive gauss := Gauss | GaussReduced1 | GaussReduced2.
(** GetGauss, integration_points_factory_1d.cpp:131-140. None: index outside the table (for GaussReduced1/2 a
    degree below 1/2 wraps around in the C++). *)
Definition get_gauss (d : nat) (meth : gauss) : option qrule :=
  match meth with
  | Gauss => nth_error gauss_legendre d
  | GaussReduced1 => if d <? 1 then None else nth_error gauss_legendre (d - 1)
  | GaussReduced2 => if d <? 2 then None else nth_error gauss_legendre (d - 2)
  end.
