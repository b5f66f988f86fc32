(** Model of the Gauss rule of an untrimmed element.
    Source: /repo/queso/quadrature/single_element.hpp. Simplification: double is R, the tabulated decimals are taken
    literally and all operations are exact. *)
From Coq Require Import Reals QArith Qreals List.
From Verif Require Import Geo GgqModel Ggq1dModel.
Import ListNotations.
Local Open Scope R_scope.

(** the entries of the 1D tables as real numbers *)
Definition real_rule (l : qrule) : rule := map (fun q => (Q2R (fst q), Q2R (snd q))) l.

(** the three nested loops, single_element.hpp:90-101. *)
Definition assemble_loops (lo up : pt) (u v w : rule) : list ipoint :=
  let lu := Rabs (px up - px lo) in let lv := Rabs (py up - py lo) in let lw := Rabs (pz up - pz lo) in
  flat_map (fun a => flat_map (fun b => map (fun c =>
    IP (Pt (px lo + lu * fst a) (py lo + lv * fst b) (pz lo + lw * fst c))
       (snd a * lu * snd b * lv * snd c * lw)) w) v) u.
(** AssembleIPs, single_element.hpp:72-102. None: a table is read outside its bounds (undefined behaviour). *)
Definition assemble_ips (b : box) (o : nat * nat * nat) (meth : gauss) : option (list ipoint) :=
  let '(ou, ov, ow) := o in
  match get_gauss ou meth, get_gauss ov meth, get_gauss ow meth with
  | Some u, Some v, Some w => Some (assemble_loops (lower b) (upper b) (real_rule u) (real_rule v) (real_rule w))
  | _, _, _ => None
  end.
