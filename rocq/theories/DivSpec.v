(** Specification of integrals over triangles, over surfaces made of triangles and over the region that they enclose.
    Nothing here refers to the model of the code but the types of points and triangles. *)
From Coq Require Import Reals List.
From Verif Require Import Geo TrimmedQuadModel MeshModel MeshGeoModel MeshGeoProofs.
Import ListNotations.
Local Open Scope R_scope.

(** [v] is the integral of [f] from [a] to [b]. *)
Definition newton (f : R -> R) (a b v : R) : Prop := exists F, (forall x, derivable_pt_lim F x (f x)) /\ v = F b - F a.
(** [v] is the integral of [f] over the triangle 0 <= u, 0 <= w, u + w <= 1. *)
Definition over_triangle (f : R -> R -> R) (v : R) : Prop := exists g, (forall u, newton (f u) 0 (1 - u) (g u)) /\ newton g 0 1 v.
(** The point of a triangle with the coordinates u and w. *)
Definition position (t : tri pt) (u w : R) : pt := vadd (vadd (vscale (1 - u - w) (P1 t)) (vscale u (P2 t))) (vscale w (P3 t)).
(** The point on the way from [o] to [x]. *)
Definition toward (o : pt) (s : R) (x : pt) : pt := vadd (vscale (1 - s) o) (vscale s x).
(** Six times the signed volume of the tetrahedron with the apex [o] over a triangle: positive if the triangle is seen from behind. *)
Definition cone_det (o : pt) (t : tri pt) : R := dot (vsub (P1 t) o) (cross (vsub (P2 t) o) (vsub (P3 t) o)).
(** [v] is the (signed) integral of [f] over that tetrahedron, which is the image of the prism 0 <= s <= 1, 0 <= u, 0 <= w, u + w <= 1
    under (s, u, w) |-> toward o s (position t u w); the Jacobian determinant is cone_det o t * s^2. *)
Definition over_cone (o : pt) (t : tri pt) (f : pt -> R) (v : R) : Prop :=
  exists g, (forall s, over_triangle (fun u w => f (toward o s (position t u w))) (g s)) /\
            newton (fun s => cone_det o t * s ^ 2 * g s) 0 1 v.
(** [v] is the integral of [f] over the region enclosed by the triangles: the sum of the signed cones from the point [o]. *)
Definition enclosed (o : pt) (l : list (tri pt)) (f : pt -> R) (v : R) : Prop :=
  exists vs, Forall2 (fun t => over_cone o t f) l vs /\ v = sum (fun x => x) vs.
(** [v] is the flow of the vector field [F] through the triangles: the integral of the component along the normal. The integral
    over a triangle is taken in the coordinates u and w; their area element times the unit normal is area2. *)
Definition outflow (l : list (tri pt)) (F : pt -> pt) (v : R) : Prop :=
  exists vs, Forall2 (fun t => over_triangle (fun u w => dot (area2 t) (F (position t u w)))) l vs /\ v = sum (fun x => x) vs.

(** Polynomials in three variables. *)
Inductive pexp := Cst (r : R) | Var (a : axis) | Add (e f : pexp) | Mul (e f : pexp).
Fixpoint pev (e : pexp) (p : pt) : R :=
  match e with Cst r => r | Var a => at_ a p | Add e f => pev e p + pev f p | Mul e f => pev e p * pev f p end.
Definition polynomial (f : pt -> R) : Prop := exists e, forall p, f p = pev e p.
(** [d] is the divergence of the field [F]. *)
Definition is_divergence (F : pt -> pt) (d : pt -> R) : Prop :=
  forall p, exists dx dy dz, derivable_pt_lim (fun t => px (F (Pt t (py p) (pz p)))) (px p) dx /\
    derivable_pt_lim (fun t => py (F (Pt (px p) t (pz p)))) (py p) dy /\
    derivable_pt_lim (fun t => pz (F (Pt (px p) (py p) t))) (pz p) dz /\ d p = dx + dy + dz.
