(** Model of the search tree over bounding boxes.
    Source: /repo/external_libraries/aabb_tree/AABB_base.h, AABB_base.cc, /repo/queso/embedding/aabb_tree.h, aabb_tree.cpp.
    The node pool is an array of nodes that point at each other by index, as in the code.  The numbers are values of any type
    with a comparison and any operations add, sub and mul: no property depends on what the operations compute, so floating
    point rounding is covered as long as no NaN is compared.
    Simplifications: NULL_NODE is None (the indices stay below 2^32 - 1, see [alloc]); the fields centre and surfaceArea are
    computed from the bounds when they are read; an index outside of the pool (undefined behaviour), an unsigned overflow of
    the pool size and a loop that does not end are all None; particleMap is an association list.
    Not modelled: removal and update of particles, periodic boxes, Tree_base::query (none of them is called by QuESo). *)
From Coq Require Import List Arith Bool ZArith.
From Verif Require Import StlModel.
Import ListNotations.

(** Arithmetic of the coordinates (double in the code). *)
Record arith := Arith {
  num : Type;
  ltb : num -> num -> bool;
  add : num -> num -> num;
  sub : num -> num -> num;
  mul : num -> num -> num;
  zero : num; one : num; two : num }.

Section Search.
Variable A : arith.
Let D := num A.

(** std::min, std::max. *)
Definition dmin (a b : D) : D := if ltb A b a then b else a.
Definition dmax (a b : D) : D := if ltb A a b then b else a.

(** AABB_base, AABB_base.h:61-141. *)
Record aabb := AABB { lo : vec D; up : vec D }.
(** AABB_base::merge, AABB_base.cc:105-121. *)
Definition merge (a b : aabb) : aabb :=
  AABB (Vec (dmin (vx (lo a)) (vx (lo b))) (dmin (vy (lo a)) (vy (lo b))) (dmin (vz (lo a)) (vz (lo b))))
       (Vec (dmax (vx (up a)) (vx (up b))) (dmax (vy (up a)) (vy (up b))) (dmax (vz (up a)) (vz (up b)))).
(** AABB_base::computeSurfaceArea, AABB_base.cc:72-98. *)
Definition surface (b : aabb) : D :=
  let dx := sub A (vx (up b)) (vx (lo b)) in
  let dy := sub A (vy (up b)) (vy (lo b)) in
  let dz := sub A (vz (up b)) (vz (lo b)) in
  let side p q := mul A (mul A (one A) p) q in
  mul A (two A) (add A (add A (add A (zero A) (side dy dz)) (side dx dz)) (side dx dy)).

(** Node, AABB_base.h:155-186. *)
Record node := Node {
  n_box : aabb; n_parent : option nat; n_next : option nat; n_left : option nat; n_right : option nat;
  n_height : Z; n_part : nat }.
(** Node::isLeaf, AABB_base.cc:190-193. *)
Definition is_leaf (n : node) : bool := match n_left n with None => true | Some _ => false end.

(** Assignments to single fields of a node. *)
Definition set_box (v : aabb) (n : node) := Node v (n_parent n) (n_next n) (n_left n) (n_right n) (n_height n) (n_part n).
Definition set_parent (v : option nat) (n : node) := Node (n_box n) v (n_next n) (n_left n) (n_right n) (n_height n) (n_part n).
Definition set_next (v : option nat) (n : node) := Node (n_box n) (n_parent n) v (n_left n) (n_right n) (n_height n) (n_part n).
Definition set_left (v : option nat) (n : node) := Node (n_box n) (n_parent n) (n_next n) v (n_right n) (n_height n) (n_part n).
Definition set_right (v : option nat) (n : node) := Node (n_box n) (n_parent n) (n_next n) (n_left n) v (n_height n) (n_part n).
Definition set_height (v : Z) (n : node) := Node (n_box n) (n_parent n) (n_next n) (n_left n) (n_right n) v (n_part n).
Definition set_part (v : nat) (n : node) := Node (n_box n) (n_parent n) (n_next n) (n_left n) (n_right n) (n_height n) v.

(** The members of Tree_base that are used here, AABB_base.h:402-442: the pool of nodes (a function on all indices, of which
    those below the capacity exist; the memory beyond it and the fields that no constructor sets hold any values). *)
Record tree := Tree {
  t_nodes : nat -> node; t_cap : nat; t_count : nat; t_free : option nat; t_root : option nat;
  t_map : list (nat * nat) }.
Definition with_nodes (m : nat -> node) (t : tree) := Tree m (t_cap t) (t_count t) (t_free t) (t_root t) (t_map t).
Definition with_root (r : option nat) (t : tree) := Tree (t_nodes t) (t_cap t) (t_count t) (t_free t) r (t_map t).

(** nodes[i] for reading and for assignment; an index outside of the vector is undefined behaviour. *)
Definition upd (m : nat -> node) (i : nat) (n : node) : nat -> node := fun j => if j =? i then n else m j.
Definition rd (t : tree) (i : nat) : option node := if i <? t_cap t then Some (t_nodes t i) else None.
Definition wr (i : nat) (f : node -> node) (t : tree) : option tree :=
  if i <? t_cap t then Some (with_nodes (upd (t_nodes t) i (f (t_nodes t i))) t) else None.
(** nodes[i] where i may be NULL_NODE. *)
Definition rdo (t : tree) (o : option nat) : option node := match o with None => None | Some i => rd t i end.
Definition wro (o : option nat) (f : node -> node) (t : tree) : option tree :=
  match o with None => None | Some i => wr i f t end.

Definition bind {X Y} (x : option X) (f : X -> option Y) : option Y := match x with None => None | Some a => f a end.
Local Notation "'do' x <- a ; b" := (bind a (fun x => b)) (at level 200, x name, a at level 100, b at level 200).

(** The loops that link the free nodes, AABB_base.cc:219-223 and 307-311: n iterations from i. *)
Fixpoint link (n i : nat) (m : nat -> node) : nat -> node :=
  match n with
  | O => m
  | S n' => link n' (S i) (upd m i (set_height (-1)%Z (set_next (Some (S i)) (m i))))
  end.
(** ... followed by the last node, AABB_base.cc:224-225 and 312-313. *)
Definition link_all (first last : nat) (m : nat -> node) : nat -> node :=
  let m' := link (last - first) first m in
  upd m' last (set_height (-1)%Z (set_next None (m' last))).
(** Tree_base::Tree_base, AABB_base.cc:195-229; nParticles is 16 in aabb_tree.h:52.  [junk] is the initial memory. *)
Definition pool_size : nat := 16.
Definition new_tree (junk : nat -> node) : tree := Tree (link_all 0 (pool_size - 1) junk) pool_size 0 (Some 0) None [].

(** Tree_base::allocateNode, AABB_base.cc:295-330; a pool size of 2^32 or more would overflow. *)
Definition grow (t : tree) : option tree :=
  match t_free t with
  | Some _ => Some t
  | None =>
      let cap := 2 * t_cap t in
      if (Z.of_nat cap <? 2 ^ 32)%Z
      then Some (Tree (link_all (t_count t) (cap - 1) (t_nodes t)) cap (t_count t) (Some (t_count t)) (t_root t) (t_map t))
      else None
  end.
Definition alloc (t0 : tree) : option (nat * tree) :=
  do t <- grow t0;
  match t_free t with
  | None => None
  | Some i =>
      do n <- rd t i;
      do t' <- wr i (fun n => set_height 0%Z (set_right None (set_left None (set_parent None n)))) t;
      Some (i, Tree (t_nodes t') (t_cap t') (S (t_count t')) (n_next n) (t_root t') (t_map t'))
  end.

(** nodes[o].left == i on an index that may be NULL_NODE. *)
Definition is_index (o : option nat) (i : nat) : bool := match o with None => false | Some j => j =? i end.
(** "The node's old parent should now point to its child", AABB_base.cc:890-899 and 943-952. *)
Definition replace_child (par : option nat) (old new : nat) (t : tree) : option tree :=
  match par with
  | None => Some (with_root (Some new) t)
  | Some p =>
      do n <- rd t p;
      if is_index (n_left n) old then wr p (set_left (Some new)) t else wr p (set_right (Some new)) t
  end.
(** merge and height of a node from two others, e.g. AABB_base.cc:907 and 910. *)
Definition merge_of (t : tree) (a b : nat) : option aabb :=
  do x <- rd t a; do y <- rd t b; Some (merge (n_box x) (n_box y)).
Definition height_of (t : tree) (a b : nat) : option Z :=
  do x <- rd t a; do y <- rd t b; Some (1 + Z.max (n_height x) (n_height y))%Z.
(** The second half of a rotation, AABB_base.cc:904-911, 915-922, 957-964 and 968-975: [up] is the child that moves up, [keep]
    its child that stays, [give] its child that moves to the node, [other] the other child of the node; the box of the node is
    merged from [other] and [give]. *)
Definition rotate (right_up : bool) (i upper keep give other : nat) (t : tree) : option tree :=
  do t <- wr upper (set_right (Some keep)) t;
  do t <- wr i ((if right_up then set_right else set_left) (Some give)) t;
  do t <- wr give (set_parent (Some i)) t;
  do b <- merge_of t other give;
  do t <- wr i (set_box b) t;
  do b <- merge_of t i keep;
  do t <- wr upper (set_box b) t;
  do h <- height_of t other give;
  do t <- wr i (set_height h) t;
  do h <- height_of t i keep;
  wr upper (set_height h) t.
(** One of the two branches of balance, AABB_base.cc:876-926 and 929-979. *)
Definition rotate_up (right_up : bool) (i upper other : nat) (t : tree) : option (nat * tree) :=
  do u <- rd t upper;
  match n_left u, n_right u with
  | Some ul, Some ur =>
      do n <- rd t i;
      do t <- wr upper (fun u => set_parent (n_parent n) (set_left (Some i) u)) t;
      do t <- wr i (set_parent (Some upper)) t;
      do t <- replace_child (n_parent n) i upper t;
      do l <- rd t ul;
      do r <- rd t ur;
      do t <- (if (n_height r <? n_height l)%Z then rotate right_up i upper ul ur other t
               else rotate right_up i upper ur ul other t);
      Some (upper, t)
  | _, _ => None
  end.
(** Tree_base::balance, AABB_base.cc:860-982. *)
Definition balance (i : nat) (t : tree) : option (nat * tree) :=
  do n <- rd t i;
  if is_leaf n || (n_height n <? 2)%Z then Some (i, t)
  else
    match n_left n, n_right n with
    | Some l, Some r =>
        do nl <- rd t l;
        do nr <- rd t r;
        let current := (n_height nr - n_height nl)%Z in
        if (1 <? current)%Z then rotate_up true i r l t
        else if (current <? -1)%Z then rotate_up false i l r t
        else Some (i, t)
    | _, _ => None
    end.

(** The cost of descending into a child, AABB_base.cc:722-754. *)
Definition child_cost (leaf : aabb) (inherit : D) (c : node) : D :=
  let s := surface (merge leaf (n_box c)) in
  if is_leaf c then add A s inherit else add A (sub A s (surface (n_box c))) inherit.
(** The search for the sibling, AABB_base.cc:704-762. *)
Fixpoint descend (fuel : nat) (leaf : aabb) (i : nat) (t : tree) : option nat :=
  match fuel with
  | O => None
  | S fuel' =>
      do n <- rd t i;
      if is_leaf n then Some i
      else
        match n_left n, n_right n with
        | Some l, Some r =>
            do nl <- rd t l;
            do nr <- rd t r;
            let combined := surface (merge (n_box n) leaf) in
            let cost := mul A (two A) combined in
            let inherit := mul A (two A) (sub A combined (surface (n_box n))) in
            let cl := child_cost leaf inherit nl in
            let cr := child_cost leaf inherit nr in
            if ltb A cost cl && ltb A cost cr then Some i
            else if ltb A cl cr then descend fuel' leaf l t else descend fuel' leaf r t
        | _, _ => None
        end
  end.
(** "Walk back up the tree", AABB_base.cc:796-810. *)
Fixpoint walk_up (fuel : nat) (o : option nat) (t : tree) : option tree :=
  match fuel with
  | O => None
  | S fuel' =>
      match o with
      | None => Some t
      | Some i0 =>
          do bt <- balance i0 t;
          let i := fst bt in
          let t := snd bt in
          do n <- rd t i;
          match n_left n, n_right n with
          | Some l, Some r =>
              do h <- height_of t l r;
              do t <- wr i (set_height h) t;
              do b <- merge_of t l r;
              do t <- wr i (set_box b) t;
              walk_up fuel' (n_parent n) t
          | _, _ => None
          end
      end
  end.
(** Tree_base::insertLeaf, AABB_base.cc:690-811. *)
Definition insert_leaf (leaf : nat) (t : tree) : option tree :=
  match t_root t with
  | None => wr leaf (set_parent None) (with_root (Some leaf) t)
  | Some root =>
      do nl <- rd t leaf;
      let leaf_box := n_box nl in
      do sibling <- descend (S (t_cap t)) leaf_box root t;
      do ns <- rd t sibling;
      let old := n_parent ns in
      do a <- alloc t;
      let new := fst a in
      let t := snd a in
      do t <- wr new (set_parent old) t;
      do ns <- rd t sibling;
      do t <- wr new (fun n => set_height (n_height ns + 1)%Z (set_box (merge leaf_box (n_box ns)) n)) t;
      do t <- match old with
              | None => Some t
              | Some p =>
                  do np <- rd t p;
                  if is_index (n_left np) sibling then wr p (set_left (Some new)) t else wr p (set_right (Some new)) t
              end;
      do t <- wr new (fun n => set_right (Some leaf) (set_left (Some sibling) n)) t;
      do t <- wr sibling (set_parent (Some new)) t;
      do t <- wr leaf (set_parent (Some new)) t;
      let t := match old with None => with_root (Some new) t | Some _ => t end in
      do nl <- rd t leaf;
      walk_up (S (t_cap t)) (n_parent nl) t
  end.

(** lowerBound[i] > upperBound[i] for some i, AABB_base.cc:417. *)
Definition bad_bounds (b : aabb) : bool :=
  ltb A (vx (up b)) (vx (lo b)) || ltb A (vy (up b)) (vy (lo b)) || ltb A (vz (up b)) (vz (lo b)).
(** Tree_base::insertParticle, AABB_base.cc:393-447; the flag tells whether it threw.  skinThickness is 0.0 in aabb_tree.h:52:
    the box is not fattened (0.0 * size is zero for finite sizes). *)
Definition insert_particle (p : nat) (b : aabb) (t : tree) : option (bool * tree) :=
  if existsb (fun e => fst e =? p) (t_map t) then Some (true, t)
  else
    do a <- alloc t;
    let i := fst a in
    let t := snd a in
    if bad_bounds b then Some (true, t)
    else
      do t <- wr i (fun n => set_height 0%Z (set_box b n)) t;
      do t <- insert_leaf i t;
      do t <- wr i (set_part p) t;
      Some (false, Tree (t_nodes t) (t_cap t) (t_count t) (t_free t) (t_root t) ((p, i) :: t_map t)).
(** A sequence of insertions into one tree. *)
Fixpoint insert_all (l : list (nat * aabb)) (t : tree) : option (list bool * tree) :=
  match l with
  | [] => Some ([], t)
  | (p, b) :: l' =>
      do r <- insert_particle p b t;
      do rs <- insert_all l' (snd r);
      Some (fst r :: fst rs, snd rs)
  end.

(** AABB_tree::Query, aabb_tree.cpp:35-70: [hit] is the intersect function of the query.  The node is read before it is
    compared with NULL_NODE (lines 49-52); the stack has its top at the head; the constructor of the box at line 50 throws
    for a box with exchanged bounds. *)
Inductive queried := Results (l : list nat) | QueryThrows | QueryUndefined | QueryFuel.
Fixpoint query_loop (fuel : nat) (hit : aabb -> bool) (stack : list (option nat)) (acc : list nat) (t : tree) : queried :=
  match fuel with
  | O => QueryFuel
  | S fuel' =>
      match stack with
      | [] => Results acc
      | o :: stack' =>
          match rdo t o with
          | None => QueryUndefined
          | Some n =>
              if bad_bounds (n_box n) then QueryThrows
              else if hit (n_box n) then
                if is_leaf n then query_loop fuel' hit stack' (acc ++ [n_part n]) t
                else query_loop fuel' hit (n_right n :: n_left n :: stack') acc t
              else query_loop fuel' hit stack' acc t
          end
      end
  end.
Definition query (hit : aabb -> bool) (t : tree) : queried := query_loop (S (2 * t_cap t)) hit [t_root t] [] t.

(** AABB_primitive::intersect(aabb), aabb_primitive.cpp:20-27. *)
Definition overlap (a b : aabb) : bool :=
  negb (ltb A (vx (up b)) (vx (lo a)) || ltb A (vx (up a)) (vx (lo b))
     || ltb A (vy (up b)) (vy (lo a)) || ltb A (vy (up a)) (vy (lo b))
     || ltb A (vz (up b)) (vz (lo a)) || ltb A (vz (up a)) (vz (lo b))).

(** The box of a triangle, aabb_tree.h:57-70: std::minmax_element over each coordinate. *)
Definition min3 (a b c : D) : D := dmin (dmin a b) c.
Definition max3 (a b c : D) : D := dmax (dmax a b) c.
Definition tri_box (t : vec D * vec D * vec D) : aabb :=
  let '(a, b, c) := t in
  AABB (Vec (min3 (vx a) (vx b) (vx c)) (min3 (vy a) (vy b) (vy c)) (min3 (vz a) (vz b) (vz c)))
       (Vec (max3 (vx a) (vx b) (vx c)) (max3 (vy a) (vy b) (vy c)) (max3 (vz a) (vz b) (vz c))).
(** The constructor AABB_tree::AABB_tree, aabb_tree.h:51-82: the tree and the bounds of the mesh (mLowerBound, mUpperBound);
    an exception is None.  [init] is the pair of the largest and lowest number. *)
Fixpoint number {X} (i : nat) (l : list X) : list (nat * X) :=
  match l with [] => [] | x :: l' => (i, x) :: number (S i) l' end.
(** std::min(a, b) per coordinate with the new value first, aabb_tree.h:73-80. *)
Definition extend (bounds b : aabb) : aabb := merge b bounds.
Definition build (junk : nat -> node) (init : aabb) (tris : list (vec D * vec D * vec D)) : option (tree * aabb) :=
  let boxes := map tri_box tris in
  do r <- insert_all (number 0 boxes) (new_tree junk);
  if existsb (fun b => b) (fst r) then None else Some (snd r, fold_left extend boxes init).
(** AABB_tree::IsWithinBoundingBox, aabb_tree.cpp:20-32. *)
Definition within_bounds (b : aabb) (p : vec D) : bool :=
  negb (ltb A (vx p) (vx (lo b)) || ltb A (vx (up b)) (vx p)
     || ltb A (vy p) (vy (lo b)) || ltb A (vy (up b)) (vy p)
     || ltb A (vz p) (vz (lo b)) || ltb A (vz (up b)) (vz p)).
End Search.
