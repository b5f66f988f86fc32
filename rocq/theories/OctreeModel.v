(** Model of the octree that distributes the initial points of a trimmed element.
    Source: /repo/queso/embedding/octree.h, octree.cpp. Simplifications: double is R; levels and counters are unbounded
    naturals; the tree is a value (std::unique_ptr children are optional subtrees). *)
From Coq Require Import Arith Reals List Bool.
From Verif Require Import Geo GridStoreModel GgqModel Ggq1dModel GaussModel MappingModel.
Import ListNotations.
Local Open Scope R_scope.

(** operator+, operator- and the scaling of points, utilities/math_utilities.hpp:92-130 (element-wise). *)
Definition pplus (p q : pt) : pt := Pt (px p + px q) (py p + py q) (pz p + pz q).
Definition pminus (p q : pt) : pt := Pt (px p - px q) (py p - py q) (pz p - pz q).
Definition pscal (c : R) (p : pt) : pt := Pt (c * px p) (c * py p) (c * pz p).

(** Node, octree.h:137-142. mNumChildren is the number of children that are not null. *)
Inductive node := Node (n_xyz n_uvw : box) (n_status : istate) (n_level : nat) (n_children : list (option node)).
Definition n_xyz (t : node) : box := let 'Node b _ _ _ _ := t in b.
Definition n_uvw (t : node) : box := let 'Node _ b _ _ _ := t in b.
Definition n_status (t : node) : istate := let 'Node _ _ s _ _ := t in s.
Definition n_level (t : node) : nat := let 'Node _ _ _ l _ := t in l.
Definition n_children (t : node) : list (option node) := let 'Node _ _ _ _ c := t in c.
(** mChildren after construction, octree.h:61. *)
Definition no_children : list (option node) := repeat None 8.
(** IsLeaf, octree.cpp:126-128: mNumChildren == 0. *)
Definition no_child (c : list (option node)) : bool := forallb (fun o => match o with None => true | Some _ => false end) c.
Definition is_leaf (t : node) : bool := no_child (n_children t).

(** the eight boxes of the children in the order of mChildren, octree.cpp:34-41 and 53-76; the same expressions are used
    for both coordinate spaces. *)
Definition child_boxes (b : box) : list box :=
  let lo := lower b in let up := upper b in
  let d := pscal (5 / 10) (pminus up lo) in
  let dx := Pt (px d) 0 0 in let dy := Pt 0 (py d) 0 in let dz := Pt 0 0 (pz d) in
  [ Box lo (pplus lo d);
    Box (pplus lo dx) (pplus (pplus lo dx) d);
    Box (pminus (pminus up dz) d) (pminus up dz);
    Box (pplus lo dy) (pplus (pplus lo dy) d);
    Box (pplus lo dz) (pplus (pplus lo dz) d);
    Box (pminus (pminus up dy) d) (pminus up dy);
    Box (pminus up d) up;
    Box (pminus (pminus up dx) d) (pminus up dx) ].

Section Octree.
(** GetIntersectionState<global>(lower, upper) and IsInsideActiveDomain<global>(point) of the operator. *)
Variable state : box -> istate.
Variable inside : pt -> bool.

Section Refine.
Variables (mn mx : nat).
(** condition to split a leaf, octree.cpp:52. *)
Definition wants_split (lvl : nat) (st : istate) : bool :=
  (lvl <? mn)%nat || ((lvl <? mx)%nat && match st with Trimmed => true | _ => false end).
(** construction of a node followed by Refine on it (CreateNewNode, octree.cpp:116-123; leaf branch of Refine,
    octree.cpp:33-79). [n] bounds the depth of the recursion; it is the number of levels left, see [refine]. *)
Fixpoint grow (n : nat) (xyz uvw : box) (st : istate) (lvl : nat) : node :=
  match n with
  | O => Node xyz uvw st lvl no_children
  | S n' =>
      if wants_split lvl st then
        Node xyz uvw st lvl (map (fun c => match state (fst c) with
                                           | Outside => None
                                           | s => Some (grow n' (fst c) (snd c) s (S lvl))
                                           end) (combine (child_boxes xyz) (child_boxes uvw)))
      else Node xyz uvw st lvl no_children
  end.
(** Node::Refine, octree.cpp:28-88. *)
Fixpoint refine (t : node) : node :=
  match t with
  | Node xyz uvw st lvl ch =>
      if no_child ch then grow (Nat.max mn mx - lvl) xyz uvw st lvl
      else Node xyz uvw st lvl (map (fun o => match o with None => None | Some c => Some (refine c) end) ch)
  end.
End Refine.

(** Octree, octree.h:224-227: root and refinement levels. *)
Record octree := Oct { o_root : node; o_min : nat; o_max : nat }.
(** constructor, octree.h:156-161. *)
Definition octree_new (xyz uvw : box) : octree := Oct (Node xyz uvw Trimmed 0 no_children) 0 0.
(** Octree::Refine, octree.cpp:135-141. None: exception. *)
Definition octree_refine (mn mx : nat) (t : octree) : option octree :=
  if (mx <? mn)%nat then None else Some (Oct (refine mn mx (o_root t)) mn mx).

(** NumberOfLeafs, octree.cpp:91-101 and 145-149: the counter passed by reference. *)
Fixpoint leafs_from (t : node) (v : nat) : nat :=
  match t with
  | Node _ _ _ _ ch =>
      if no_child ch then S v
      else fold_left (fun v o => match o with None => v | Some c => leafs_from c v end) ch v
  end.
Definition number_of_leafs (t : octree) : nat := leafs_from (o_root t) 0.
(** NumberOfNodes, octree.cpp:104-113 and 152-156. *)
Fixpoint nodes_from (t : node) (v : nat) : nat :=
  match t with
  | Node _ _ _ _ ch =>
      if no_child ch then S v
      else fold_left (fun v o => match o with None => v | Some c => nodes_from c v end) ch (S v)
  end.
Definition number_of_nodes (t : octree) : nat := nodes_from (o_root t) 0.

(** leaf branch of GetIntegrationPoints, octree.h:85-98. None: undefined behaviour of the table look-up. *)
Definition leaf_points (o : nat * nat * nat) (xyz uvw : box) (st : istate) : option (list ipoint) :=
  match assemble_ips uvw o Gauss with
  | None => None
  | Some l => Some (match st with
                    | Inside => l
                    | _ => List.filter (fun q => inside (to_global (ip_pos q) (EB xyz uvw))) l
                    end)
  end.
(** GetIntegrationPoints, octree.h:83-106: appends to the output vector. *)
Fixpoint points_from (o : nat * nat * nat) (t : node) (acc : option (list ipoint)) : option (list ipoint) :=
  match t with
  | Node xyz uvw st _ ch =>
      if no_child ch then
        match acc, leaf_points o xyz uvw st with Some a, Some l => Some (a ++ l) | _, _ => None end
      else fold_left (fun acc oc => match oc with None => acc | Some c => points_from o c acc end) ch acc
  end.
(** AddIntegrationPoints, octree.h:203-206 (pGetIntegrationPoints, octree.h:188-193, is the same with an empty vector). *)
Definition add_points (o : nat * nat * nat) (t : octree) (acc : list ipoint) : option (list ipoint) :=
  points_from o (o_root t) (Some acc).
End Octree.
