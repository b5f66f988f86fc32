(** Model of the triangulation of the part of a cell face that lies inside the geometry.
    Source: /repo/queso/embedding/trimmed_domain_on_plane.h and trimmed_domain_on_plane.cpp.
    Simplifications: double is R (a division by zero is then the unspecified value of the Coq reals); size_t indices are
    natural numbers; the switches over the orientation, trimmed_domain_on_plane.cpp:796-925, are the choice of the container;
    an access past the end of a vector, the use of an invalidated iterator or reference, and an exception are None. *)
From Coq Require Import Reals List Arith Bool.
From Verif Require Import Geo MappingModel TrimmedQuadModel MeshModel MeshGeoModel ClipModel GeoQueryModel DomainModel.
Import ListNotations.
Local Open Scope R_scope.

(** Point2DType, trimmed_domain_on_plane.h:59. *)
Definition point2 := (R * R)%type.
(** The members of TrimmedDomainOnPlane, trimmed_domain_on_plane.h:120-173 (DIRINDEX1 to 3, mUpperBoundary,
    mSwitchOrientation, mLowerBound, mUpperBound). *)
Record plane := Plane { d1 : axis; d2 : axis; d3 : axis; pl_upper : bool; pl_switch : bool; pl_lo : pt; pl_hi : pt }.
(** The constructor, trimmed_domain_on_plane.h:120-173; None: exception. *)
Definition make_plane (index : nat) (upper : bool) (lo hi : pt) (switch : bool) : option plane :=
  match index with
  | 2%nat => Some (if switch then Plane AY AX AZ upper switch lo hi else Plane AX AY AZ upper switch lo hi)
  | 1%nat => Some (if switch then Plane AX AZ AY upper switch lo hi else Plane AZ AX AY upper switch lo hi)
  | 0%nat => Some (if switch then Plane AZ AY AX upper switch lo hi else Plane AY AZ AX upper switch lo hi)
  | _ => None
  end.
(** mSnapTolerance, trimmed_domain_on_plane.h:167 with SNAPTOL = 1e-12. *)
Definition snap (pl : plane) : R := relative_tol (pl_lo pl) (pl_hi pl) (/ 10 ^ 12).
(** GetPlanePosition, trimmed_domain_on_plane.cpp:927-929. *)
Definition position (pl : plane) : R := if pl_upper pl then at_ (d3 pl) (pl_hi pl) else at_ (d3 pl) (pl_lo pl).
(** mLowerBound and mUpperBound in DIRINDEX1 and DIRINDEX2. *)
Definition left1 (pl : plane) : R := at_ (d1 pl) (pl_lo pl).
Definition right1 (pl : plane) : R := at_ (d1 pl) (pl_hi pl).
Definition bottom2 (pl : plane) : R := at_ (d2 pl) (pl_lo pl).
Definition top2 (pl : plane) : R := at_ (d2 pl) (pl_hi pl).
(** A Point3DType that is assigned in DIRINDEX1 to DIRINDEX3, for example trimmed_domain_on_plane.cpp:202-205. *)
Definition lift (pl : plane) (z : R) (p : point2) : pt := set_at (d3 pl) z (set_at (d2 pl) (snd p) (set_at (d1 pl) (fst p) (Pt 0 0 0))).
(** {p[DIRINDEX1], p[DIRINDEX2]}, for example trimmed_domain_on_plane.cpp:614. *)
Definition project (pl : plane) (p : pt) : point2 := (at_ (d1 pl) p, at_ (d2 pl) p).

(** PointComparison, trimmed_domain_on_plane.h:63-75. *)
Definition pcmp (tol : R) (a b : point2) : bool :=
  if rltb (Rabs (fst a - fst b)) tol then rltb (snd a) (snd b - tol) else rleb (fst a) (fst b - tol).
(** Neither is before the other, trimmed_domain_on_plane.cpp:761-762. *)
Definition psame (tol : R) (a b : point2) : bool := negb (pcmp tol a b) && negb (pcmp tol b a).

(** Edge2D, trimmed_domain_on_plane.h:84-113; the flags mVertexOnUpperBoundary are kept beside the copies that carry them. *)
Record edge2 := Edge2 { ev1 : nat; ev2 : nat; enormal : point2; esplits : list point2 }.
(** The containers of one orientation: the vertices, the vertices that the set refers to (as indices, in the order of their
    insertion) and the edges. *)
Record cont := Cont { verts : list point2; vset : list nat; edges : list edge2 }.
Definition empty_cont : cont := Cont [] [] [].
(** Orientation, trimmed_domain_on_plane.h:52, with all containers. *)
Record state := State { pos : cont; neg : cont; ver : cont }.
Definition empty_state : state := State empty_cont empty_cont empty_cont.

Section Contour.
Variable pl : plane.
(** The search in a std::set that holds the given points (in the order of their insertion): the position of the point that
    it returns. A parameter, as the comparison is not transitive: the answer then depends on the shape of the tree. *)
Variable lookup : list point2 -> point2 -> option nat.
(** std::sort of the split points and of the edges at the upper bound: a parameter, as it is not stable. *)
Variable sort_points : list point2 -> list point2.
Variable sort_edges : list point2 -> list (edge2 * bool) -> list (edge2 * bool).
(** TrimmedDomain::IsInside in global space. *)
Variable inside : pt -> bool.
(** The capacity that is reserved, trimmed_domain_on_plane.cpp:37. *)
Variable cap : nat.
Let tol := snap pl.

(** find and insert of the set: the index of the vertex that is found; a vertex is not inserted if the search finds one
    (insert looks for an equivalent element, too). *)
Definition set_points (c : cont) : list point2 := map (fun i => nth i (verts c) (0, 0)) (vset c).
Definition find_vertex (c : cont) (p : point2) : option nat :=
  match lookup (set_points c) p with None => None | Some k => nth_error (vset c) k end.
(** GetUniqueVertexIDs, trimmed_domain_on_plane.cpp:753-794. The comparison of the two iterators is that of the indices. *)
Definition unique_ids (c : cont) (a b : point2) : nat * nat :=
  if psame tol a b then (0, 0)%nat
  else
    match find_vertex c a, find_vertex c b with
    | Some i, Some j => if (i =? j)%nat then (0, 0)%nat else (i, j)
    | Some i, None => (i, length (verts c))
    | None, Some j => (length (verts c), j)
    | None, None => (length (verts c), length (verts c) + 1)%nat
    end.
(** InsertVertex with an index, trimmed_domain_on_plane.cpp:653-665. If the vector grows beyond the reserved capacity, then
    the iterators in the set are invalid and the insertion into the set uses them: None. *)
Definition insert_at (p : point2) (i : nat) (c : cont) : option cont :=
  if (i =? length (verts c))%nat then
    if (length (verts c) <? cap)%nat then
      Some (Cont (verts c ++ [p]) (match find_vertex c p with None => vset c ++ [length (verts c)] | Some _ => vset c end) (edges c))
    else None
  else if (length (verts c) <? i)%nat then None else Some c.
(** InsertEdge in two dimensions, trimmed_domain_on_plane.cpp:592-604. *)
Definition insert_edge2 (a b n : point2) (c : cont) : option cont :=
  let '(i, j) := unique_ids c a b in
  if (i =? j)%nat then Some c
  else and_then (insert_at a i c) (fun c => and_then (insert_at b j c) (fun c =>
         Some (Cont (verts c) (vset c) (edges c ++ [Edge2 i j n []])))).
(** InsertEdge in three dimensions, trimmed_domain_on_plane.cpp:606-644. *)
Definition insert_edge3 (e : pt * pt * pt) (s : state) : option state :=
  let '(p, q, n) := e in
  let '(a, b) := if rltb (at_ (d1 pl) p) (at_ (d1 pl) q) then (project pl p, project pl q) else (project pl q, project pl p) in
  let n2 := project pl n in
  let vertical := if rltb tol (Rabs (snd a - snd b)) then option_map (fun c => State (pos s) (neg s) c) (insert_edge2 a b n2 (ver s)) else Some s in
  if rltb tol (Rabs (fst a - fst b)) then
    if rltb zerotol (snd n2) then option_map (fun c => State c (neg s) (ver s)) (insert_edge2 a b n2 (pos s))
    else if rltb (snd n2) (- zerotol) then option_map (fun c => State (pos s) c (ver s)) (insert_edge2 a b n2 (neg s))
    else vertical
  else vertical.
(** CollectEdgesOnPlane, trimmed_domain_on_plane.cpp:31-44, for the list of the edges of the plane. *)
Definition collect (es : list (pt * pt * pt)) (s : state) : option state :=
  fold_left (fun s e => and_then s (insert_edge3 e)) es (Some s).

(** V1byEdgeId and V2byEdgeId, trimmed_domain_on_plane.cpp:796-822. *)
Definition end1 (c : cont) (e : edge2) : option point2 := nth_error (verts c) (ev1 e).
Definition end2 (c : cont) (e : edge2) : option point2 := nth_error (verts c) (ev2 e).
Definition ends (c : cont) (e : edge2) : option (point2 * point2) :=
  and_then (end1 c e) (fun a => and_then (end2 c e) (fun b => Some (a, b))).
(** f for each element; None if one of them is undefined. *)
Fixpoint each {A B} (f : A -> option B) (l : list A) : option (list B) :=
  match l with [] => Some [] | a :: l => and_then (f a) (fun b => option_map (cons b) (each f l)) end.

(** A vertex on the upper boundary, trimmed_domain_on_plane.cpp:392-393. *)
Definition on_top (p : point2) : bool := rltb (Rabs (snd p - top2 pl)) (10 * tol).
(** FindIntersectingEdgesWithUpperBound, trimmed_domain_on_plane.cpp:387-423: the edges with exactly one vertex on the upper
    boundary, and whether this is the first one. *)
Definition at_top (c : cont) (e : edge2) : option (list (edge2 * bool)) :=
  option_map (fun ab => if xorb (on_top (fst ab)) (on_top (snd ab)) then [(e, on_top (fst ab))] else []) (ends c e).
Definition intersecting (c : cont) : option (list (edge2 * bool)) :=
  option_map (fun l => sort_edges (verts c) (concat l)) (each (at_top c) (edges c)).
(** The position in DIRINDEX1 of the vertices of an edge whose indices are valid. *)
Definition x1 (vs : list point2) (e : edge2) : R := fst (nth (ev1 e) vs (0, 0)).
Definition x2 (vs : list point2) (e : edge2) : R := fst (nth (ev2 e) vs (0, 0)).
(** std::unique, as in trimmed_domain_on_plane.cpp:721 and 744: each element is compared with the last one that is kept. *)
Fixpoint unique_from {A} (same : A -> A -> bool) (a : A) (l : list A) : list A :=
  match l with [] => [a] | b :: l => if same a b then unique_from same a l else a :: unique_from same b l end.
Definition unique {A} (same : A -> A -> bool) (l : list A) : list A := match l with [] => [] | a :: l => unique_from same a l end.
(** RemoveDublicateEdges, trimmed_domain_on_plane.cpp:740-747. *)
Definition remove_duplicates (vs : list point2) (l : list (edge2 * bool)) : list (edge2 * bool) :=
  unique (fun e f => rltb (Rabs (x1 vs (fst e) - x1 vs (fst f))) tol && rltb (Rabs (x2 vs (fst e) - x2 vs (fst f))) tol) l.
(** RemoveDublicateVerticalEdges, trimmed_domain_on_plane.cpp:716-738. *)
Definition remove_vertical_duplicates (vs : list point2) (l : list (edge2 * bool)) : list (edge2 * bool) :=
  let near (e f : edge2 * bool) := rltb (Rabs (x1 vs (fst e) - x1 vs (fst f))) tol in
  let copy := unique (fun e f => Bool.eqb (rltb (fst (enormal (fst e))) 0) (rltb (fst (enormal (fst f))) 0) && near e f) l in
  List.filter (fun e => (length (List.filter (near e) copy) =? 1)%nat) copy.

(** AddIntersectedVertexPositive, AddIntersectedVertexNegative and AddIntersectedVertexVertical,
    trimmed_domain_on_plane.cpp:667-714: at most one position, with true for a left boundary. *)
Definition top_positive (vs : list point2) (e : edge2 * bool) : list (R * bool) :=
  let n := fst (enormal (fst e)) in
  if snd e then (if rltb (- zerotol) n then [(x1 vs (fst e), false)] else [])
  else (if rltb n zerotol then [(x2 vs (fst e), true)] else []).
Definition top_negative (vs : list point2) (e : edge2 * bool) : list (R * bool) :=
  let n := fst (enormal (fst e)) in
  if snd e then (if rltb n zerotol then [(x1 vs (fst e), true)] else [])
  else (if rltb (- zerotol) n then [(x2 vs (fst e), false)] else []).
Definition top_vertical (vs : list point2) (e : edge2 * bool) : list (R * bool) :=
  [(x1 vs (fst e), rltb (fst (enormal (fst e))) zerotol)].
(** The distance of the vertex on the upper boundary to the left bound, trimmed_domain_on_plane.cpp:112-147; None: MAXD,
    as there is no further edge. *)
Definition top_distance (vs : list point2) (l : list (edge2 * bool)) : option R :=
  match l with
  | [] => None
  | e :: _ => Some (Rabs ((if snd e then x1 vs (fst e) else x2 vs (fst e)) - left1 pl))
  end.
(** The smallest distance, trimmed_domain_on_plane.cpp:149. *)
Definition omin (a b : option R) : option R :=
  match a, b with Some x, Some y => Some (Rmin x y) | Some x, None => Some x | None, _ => b end.
(** trimmed_domain_on_plane.cpp:150-152. *)
Definition found (d m : option R) : bool := match d, m with Some d, Some m => rltb d (m + tol) | _, _ => false end.
(** [b] advances a position in a list. *)
Definition advance {A} (b : bool) (l : list A) : list A := if b then tl l else l.
(** The loop over the edges at the upper boundary, trimmed_domain_on_plane.cpp:98-177, with a bound on the number of the
    iterations; None: not finished. *)
Fixpoint merge_tops (fuel : nat) (s : state) (lp ln lv : list (edge2 * bool)) (acc : list (R * bool)) : option (list (R * bool)) :=
  match lp, ln, lv with
  | [], [], [] => Some acc
  | _, _, _ =>
      match fuel with
      | O => None
      | S fuel =>
          let dp := top_distance (verts (pos s)) lp in
          let dn := top_distance (verts (neg s)) ln in
          let dv := top_distance (verts (ver s)) lv in
          let m := omin dp (omin dn dv) in
          let fp := found dp m in
          let fn := found dn m in
          let fv := found dv m in
          let new :=
            if (1 <? Nat.b2n fp + Nat.b2n fn + Nat.b2n fv)%nat then []
            else if fp then match lp with e :: _ => top_positive (verts (pos s)) e | [] => [] end
            else if fn then match ln with e :: _ => top_negative (verts (neg s)) e | [] => [] end
            else match lv with e :: _ => top_vertical (verts (ver s)) e | [] => [] end in
          merge_tops fuel s (advance fp lp) (advance fn ln) (advance fv lv) (acc ++ new)
      end
  end.
(** PointExists, trimmed_domain_on_plane.cpp:941-945, in the three sets. *)
Definition exists_somewhere (s : state) (p : point2) : bool :=
  let ex c := match find_vertex c p with Some _ => true | None => false end in
  ex (pos s) || ex (neg s) || ex (ver s).
(** trimmed_domain_on_plane.cpp:63-188: the vertices at the upper boundary, and whether both corners are added. *)
Definition top_vertices (s : state) : option (list (R * bool) * bool) :=
  and_then (intersecting (pos s)) (fun ip => and_then (intersecting (neg s)) (fun ineg => and_then (intersecting (ver s)) (fun iv =>
  let lv := remove_vertical_duplicates (verts (ver s)) iv in
  let lp := remove_duplicates (verts (pos s)) ip in
  let ln := remove_duplicates (verts (neg s)) ineg in
  let corner_left := negb (exists_somewhere s (left1 pl, top2 pl)) in
  let corner_right := negb (exists_somewhere s (right1 pl, top2 pl)) in
  and_then (merge_tops (length lp + length ln + length lv) s lp ln lv (if corner_left then [(left1 pl, true)] else [])) (fun l =>
  let corner_right := corner_right && match rev l with [] => false | q :: _ => rltb tol (Rabs (fst q - right1 pl)) end in
  Some (if corner_right then l ++ [(right1 pl, false)] else l, corner_left && corner_right))))).
(** GetMaxDIRINDEX2 for the negative and the positive vertices, and the maximum with the lower bound,
    trimmed_domain_on_plane.cpp:190-192 and 931-939. *)
Definition highest (s : state) : R := fold_left (fun acc p => Rmax acc (snd p)) (verts (neg s) ++ verts (pos s)) (bottom2 pl).
(** An edge on the upper boundary, trimmed_domain_on_plane.cpp:206-208 and 216-218. *)
Definition insert_top (l r : R) (s : state) : option state :=
  option_map (fun c => State c (neg s) (ver s)) (insert_edge2 (l, top2 pl) (r, top2 pl) (0, 1) (pos s)).
(** The loop over consecutive vertices, trimmed_domain_on_plane.cpp:213-220. *)
Fixpoint insert_tops (l : list (R * bool)) (s : state) : option state :=
  match l with
  | a :: ((b :: _) as l') => and_then (if snd a && negb (snd b) then insert_top (fst a) (fst b) s else Some s) (insert_tops l')
  | _ => Some s
  end.
(** trimmed_domain_on_plane.cpp:195-221. *)
Definition close_top (s : state) : option state :=
  and_then (top_vertices s) (fun q =>
    match fst q with
    | [a; b] =>
        if snd q then
          if inside (lift pl (position pl) (fst a + / 2 * (fst b - fst a), / 2 * (top2 pl + highest s))) then insert_top (fst a) (fst b) s
          else Some s
        else insert_tops (fst q) s
    | l => insert_tops l s
    end).

(** The point of the line through a and b at a position in DIRINDEX1, trimmed_domain_on_plane.cpp:504 and 523. *)
Definition line_at (a b : point2) (x : R) : R := snd a + (snd b - snd a) / (fst b - fst a) * (x - fst a).
(** The distance, trimmed_domain_on_plane.cpp:505 and 524. *)
Definition height (up : bool) (p : point2) (y : R) : R := if up then y - snd p else snd p - y.
(** The first loop of SetSplitPoint, trimmed_domain_on_plane.cpp:495-511: the distance to the nearest edge of the origin. *)
Definition barrier (up : bool) (p : point2) (l : list (point2 * point2)) : R :=
  fold_left (fun cur ab =>
    if rltb (fst (fst ab) - tol) (fst p) && rltb (fst p) (fst (snd ab) + tol) then
      let d := height up p (line_at (fst ab) (snd ab) (fst p)) in
      if rltb d cur && rltb tol d then d else cur
    else cur) l (10 ^ 15).
(** The second loop of SetSplitPoint, trimmed_domain_on_plane.cpp:513-534: the number of the edge and the split point. *)
Fixpoint split_target (up : bool) (p : point2) (i : nat) (l : list (point2 * point2)) (cur : R) (best : option (nat * point2)) : option (nat * point2) :=
  match l with
  | [] => best
  | (a, b) :: l =>
      let y := line_at a b (fst p) in
      let d := height up p y in
      if rleb (fst a + tol) (fst p) && rleb (fst p) (fst b - tol) && rltb d (cur - zerotol) && rltb tol d
      then split_target up p (S i) l d (Some (i, (fst p, y)))
      else split_target up p (S i) l cur best
  end.
(** AddSplitPoint, trimmed_domain_on_plane.h:101, for the edge with a number. *)
Fixpoint add_split (i : nat) (p : point2) (l : list edge2) : list edge2 :=
  match l, i with
  | [], _ => []
  | e :: l, O => Edge2 (ev1 e) (ev2 e) (enormal e) (esplits e ++ [p]) :: l
  | e :: l, S i => e :: add_split i p l
  end.
(** SetSplitPoint, trimmed_domain_on_plane.cpp:483-539; [up]: the destination is the positive orientation. *)
Definition set_split (up : bool) (origin : cont) (p : point2) (dest : cont) : option cont :=
  and_then (each (ends origin) (edges origin)) (fun lo => and_then (each (ends dest) (edges dest)) (fun ld =>
    Some (match split_target up p 0 ld (barrier up p lo) None with
          | None => dest
          | Some (i, q) => Cont (verts dest) (vset dest) (add_split i q (edges dest))
          end))).
(** trimmed_domain_on_plane.cpp:229-237. *)
Definition set_splits (s : state) : option state :=
  and_then (fold_left (fun d p => and_then d (set_split false (pos s) p)) (verts (pos s)) (Some (neg s))) (fun n =>
  option_map (fun c => State c n (ver s)) (fold_left (fun d p => and_then d (set_split true n p)) (verts n) (Some (pos s)))).

(** The new edges of one edge, trimmed_domain_on_plane.cpp:558-573, from the sorted split points: the vertices (InsertVertex
    without an index, trimmed_domain_on_plane.cpp:646-651) and the edges. *)
Fixpoint split_middle (n : point2) (l : list point2) (vs : list point2) : list point2 * list edge2 :=
  match l with
  | a :: ((b :: _) as l') =>
      let '(vs', es) := split_middle n l' (vs ++ [a; b]) in (vs', Edge2 (length vs) (length vs + 1) n [] :: es)
  | _ => (vs, [])
  end.
Definition split_edge (e : edge2) (l : list point2) (vs : list point2) : list point2 * list edge2 :=
  match l with
  | [] => (vs, [])
  | a :: _ =>
      let first := Edge2 (ev1 e) (length vs) (enormal e) [] in
      let '(vs, es) := split_middle (enormal e) l (vs ++ [a]) in
      let final := Edge2 (length vs) (ev2 e) (enormal e) [] in
      (vs ++ [last l a], first :: es ++ [final])
  end.
(** The loop of SplitEdgesAtSplitPoint, trimmed_domain_on_plane.cpp:541-586: the vector consists of the edges before pos
    ([kept]), of those from pos up to size ([todo]) and of the new ones ([added]). References into the vector are used
    after each push_back: None if it grows beyond its capacity (taken as the reserved one, even if the vector had to grow
    before; such a growth is harmless but gives an unspecified capacity). *)
Fixpoint split_loop (kept todo added : list edge2) (vs : list point2) : option (list edge2 * list point2) :=
  match todo with
  | [] => Some (kept ++ added, vs)
  | e :: todo' =>
      match esplits e with
      | [] => split_loop (kept ++ [e]) todo' added vs
      | _ =>
          let l := sort_points (esplits e) in
          if (length kept + length todo + length added + (length l + 1) <=? cap)%nat then
            let '(vs, es) := split_edge e l vs in split_loop kept todo' (added ++ es) vs
          else None
      end
  end.
Definition split_edges (c : cont) : option cont :=
  option_map (fun q => Cont (snd q) (vset c) (fst q)) (split_loop [] (edges c) [] (verts c)).
(** CloseContourEdges, trimmed_domain_on_plane.cpp:46-242. *)
Definition close_contour (s : state) : option state :=
  and_then (close_top s) (fun s => and_then (set_splits s) (fun s =>
  and_then (split_edges (neg s)) (fun n => option_map (fun p => State p n (ver s)) (split_edges (pos s))))).

(** FindNegativePartnerEdge, trimmed_domain_on_plane.cpp:425-481, given the end points of the negative edges.
    Simplification: the initial min_distance MAXD is larger than every distance. *)
Definition center2 (a b : point2) : point2 := (/ 2 * (fst a + fst b), / 2 * (snd a + snd b)).
Fixpoint partner (a b n : point2) (l : list (point2 * point2)) (best : option ((point2 * point2) * R)) : option ((point2 * point2) * R) :=
  match l with
  | [] => best
  | (v, w) :: l =>
      let c := center2 a b in
      let k := center2 v w in
      let value := (fst k - fst c) * fst n + (snd k - snd c) * snd n in
      let d := snd c - / 2 * (snd v + snd w) in
      let closer := match best with None => true | Some (_, m) => rltb d m end in
      let test := lift pl (if pl_upper pl then position pl + 100 * tol else position pl - 100 * tol) c in
      let take :=
        rltb (fst v) (fst c) && rltb (fst c) (fst w) &&
        (rltb (Rabs (fst a - fst v)) (10 * tol) && rltb (Rabs (fst b - fst w)) (10 * tol)) &&
        (if rleb (Rabs value) zerotol then negb (inside test) && (rltb (- zerotol) d && closer)
         else rltb value zerotol && (rleb (- zerotol) d && closer)) in
      partner a b n l (if take then Some ((v, w), d) else best)
  end.

(** The normal, trimmed_domain_on_plane.cpp:246-253. *)
Definition face_normal : pt := set_at (d3 pl) (if pl_upper pl then 1 else -1) (Pt 0 0 0).
(** mUpperBoundary ^ mSwitchOrientation. *)
Definition forwards : bool := xorb (pl_upper pl) (pl_switch pl).
(** One triangle, trimmed_domain_on_plane.cpp:281-298 and 308-325. *)
Definition face_triangle (p q r : point2) (m : cmesh) : cmesh :=
  let f := lift pl (position pl) in
  let nv := num_vertices (cm_mesh m) in
  cm_add_triangle (cm_add_vertex (cm_add_vertex (cm_add_vertex m (f p)) (f q)) (f r))
    (if forwards then (nv, nv + 1, nv + 2)%nat else (nv + 1, nv, nv + 2)%nat) face_normal.
(** One polygon, trimmed_domain_on_plane.cpp:332-380. *)
Definition face_quad (p q r s : point2) (m : cmesh) : option cmesh :=
  let f x := CV (lift pl (position pl) x) no_planes in
  add_to_mesh (Poly (if forwards then [f p; f q; f r; f s] else [f p; f s; f r; f q]) face_normal) m.
(** One positive edge, trimmed_domain_on_plane.cpp:264-382. *)
Definition face_strip (lneg : list (point2 * point2)) (e : (point2 * point2) * point2) (m : cmesh) : option cmesh :=
  let '((a, b), n) := e in
  match partner a b n lneg None with
  | Some ((v, w), _) =>
      if rltb (Rabs (snd v - snd a)) tol then Some (face_triangle v w b m)
      else if rltb (Rabs (snd w - snd b)) tol then Some (face_triangle v w a m)
      else face_quad a v w b m
  | None => face_quad a (fst a, bottom2 pl) (fst b, bottom2 pl) b m
  end.
(** TriangulateDomain, trimmed_domain_on_plane.cpp:244-385. *)
Definition triangulate_domain (s : state) : option cmesh :=
  and_then (each (ends (pos s)) (edges (pos s))) (fun lp => and_then (each (ends (neg s)) (edges (neg s))) (fun ln =>
  fold_left (fun m e => and_then m (face_strip ln e)) (combine lp (map enormal (edges (pos s)))) (Some empty_cmesh))).
End Contour.

(** pGetTriangulation, trimmed_domain_on_plane.h:191-195, with the reservation, trimmed_domain_on_plane.cpp:37. *)
Definition reserved (es : list (pt * pt * pt)) : nat := Nat.max (3 * length es) 10.
Definition face_mesh (pl : plane) (lookup : list point2 -> point2 -> option nat) (sort_points : list point2 -> list point2)
  (sort_edges : list point2 -> list (edge2 * bool) -> list (edge2 * bool)) (inside : pt -> bool) (es : list (pt * pt * pt)) : option cmesh :=
  let cap := reserved es in
  and_then (collect pl lookup cap es empty_state) (fun s =>
  and_then (close_contour pl lookup sort_points sort_edges inside cap s) (triangulate_domain pl inside)).
