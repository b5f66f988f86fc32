(** Proofs about the triangulation of polygons. *)
From Coq Require Import Reals List Arith Bool Sorted Lia Lra.
From Verif Require Import Geo MappingModel TrimmedQuadModel MeshModel MeshProofs MeshGeoModel MeshGeoProofs ClipModel ClipTheory ClipPlane ClipArea ClipProofs ClipInv.
Import ListNotations.
Local Open Scope R_scope.

(** Consecutive elements of a closed ring, beginning with the first one. *)
Definition ring {A} (l : list A) : list (A * A) := match l with [] => [] | x :: r => combine l (r ++ [x]) end.
Definition both_on (k : nat) (ab : cvert * cvert) : bool := c_on (fst ab) k && c_on (snd ab) k.
(** The triangles of a polygon. *)
Definition fan_tri (z : pt) (ab : cvert * cvert) : tri pt := Tri (c_pos (fst ab)) (c_pos (snd ab)) z.
Definition poly_tris (l : list cvert) : list (tri pt) :=
  match l with
  | [a; b; c] => [Tri (c_pos a) (c_pos b) (c_pos c)]
  | _ :: _ :: _ :: _ => map (fan_tri (centroid l)) (ring l)
  | _ => []
  end.
Definition poly_edges (l : list cvert) (n : pt) (k : nat) : list (option (pt * pt * pt)) :=
  match l with
  | _ :: _ :: _ :: _ => map (fun ab => Some (c_pos (fst ab), c_pos (snd ab), n)) (filter (both_on k) (ring l))
  | _ => []
  end.
(** Meshes with valid edges. *)
Definition edge_ok (m : cmesh) (e : edge) : Prop :=
  (e_v1 e < num_vertices (cm_mesh m) /\ e_v2 e < num_vertices (cm_mesh m) /\ e_normal e < num_triangles (cm_mesh m))%nat.
Definition cm_ok (m : cmesh) : Prop := well_formed (cm_mesh m) /\ Forall (edge_ok m) (cm_edges m).

Lemma ring_pairs {A} (x y : A) r : combine (x :: r) (r ++ [y]) = pairs x (r ++ [y]).
Proof. revert x. induction r as [|b r IH]; intros x; [reflexivity|]. cbn [app combine pairs]. f_equal. exact (IH b). Qed.

(** *** One triangle of the fan *)
Lemma three_mesh a b c n m : cm_mesh (add_three a b c n m) =
  Mesh (m_vertices (cm_mesh m) ++ [a; b; c]) (m_triangles (cm_mesh m) ++ [(num_vertices (cm_mesh m), num_vertices (cm_mesh m) + 1, num_vertices (cm_mesh m) + 2)%nat])
    (m_normals (cm_mesh m) ++ [n]).
Proof. unfold add_three, cm_add_triangle, cm_add_vertex, add_triangle, add_vertex. cbn [cm_mesh fst m_vertices m_triangles m_normals]. rewrite <- !app_assoc. reflexivity. Qed.
Lemma three_corners (vs : list pt) a b c : corners (vs ++ [a; b; c]) (length vs, length vs + 1, length vs + 2)%nat = Some (Tri a b c).
Proof. unfold corners. rewrite !nth_error_app2 by lia. replace (length vs - length vs)%nat with 0%nat by lia. replace (length vs + 1 - length vs)%nat with 1%nat by lia. replace (length vs + 2 - length vs)%nat with 2%nat by lia. reflexivity. Qed.
Lemma three_ok a b c n m l : cm_ok m -> visit_n (cm_mesh m) = Some l ->
  well_formed (cm_mesh (add_three a b c n m)) /\ visit_n (cm_mesh (add_three a b c n m)) = Some (l ++ [(Tri a b c, n)]).
Proof.
  intros [W _] Vi. rewrite three_mesh. set (vs := m_vertices (cm_mesh m)) in *.
  assert (W' : well_formed (Mesh (vs ++ [a; b; c]) (m_triangles (cm_mesh m)) (m_normals (cm_mesh m)))).
  { destruct W as [L F]. split; [exact L|]. cbn [m_vertices m_triangles]. revert F. apply Forall_impl. intros [[i j] k]. unfold index_ok. rewrite app_length. fold vs. lia. }
  split.
  - apply (add_triangle_wf _ (num_vertices (cm_mesh m), num_vertices (cm_mesh m) + 1, num_vertices (cm_mesh m) + 2)%nat n) in W'; [exact W'|].
    unfold index_ok, num_vertices. cbn [m_vertices]. rewrite app_length. cbn [length]. fold vs. lia.
  - apply (visit_add_triangle (Mesh (vs ++ [a; b; c]) (m_triangles (cm_mesh m)) (m_normals (cm_mesh m)))).
    + apply W'.
    + apply visit_more_vertices. destruct (cm_mesh m). exact Vi.
    + apply three_corners.
Qed.
Definition edge_val (m : mesh pt) (e : edge) : option (pt * pt * pt) :=
  match nth_error (m_vertices m) (e_v1 e), nth_error (m_vertices m) (e_v2 e), nth_error (m_normals m) (e_normal e) with
  | Some a, Some b, Some n => Some (a, b, n)
  | _, _, _ => None
  end.
Lemma edges_on_val m k : edges_on m k = map (edge_val (cm_mesh m)) (filter (fun e => (e_plane e =? k)%nat) (cm_edges m)).
Proof. reflexivity. Qed.
(** Growing a mesh keeps its edges. *)
Definition grows (m m' : mesh pt) : Prop := exists vs ts ns, m_vertices m' = m_vertices m ++ vs /\ m_triangles m' = m_triangles m ++ ts /\ m_normals m' = m_normals m ++ ns.
Lemma grows_val m m' e : well_formed (cm_mesh m) -> grows (cm_mesh m) m' -> edge_ok m e -> edge_val m' e = edge_val (cm_mesh m) e.
Proof.
  intros [L _] (vs & ts & ns & Ev & _ & En) (A & B & C). unfold edge_val. unfold num_triangles in C. rewrite Ev, En, !nth_error_app1 by (unfold num_vertices in *; lia). reflexivity.
Qed.
Lemma three_grows a b c n m : grows (cm_mesh m) (cm_mesh (add_three a b c n m)).
Proof. exists [a; b; c], [(num_vertices (cm_mesh m), num_vertices (cm_mesh m) + 1, num_vertices (cm_mesh m) + 2)%nat], [n]. rewrite three_mesh. repeat split. Qed.
(** A triangle with edges between its vertices. *)
Lemma add_edges_ok a b c n m es l : cm_ok m -> visit_n (cm_mesh m) = Some l ->
  (forall e, In e es -> e_normal e = num_triangles (cm_mesh m) /\ (num_vertices (cm_mesh m) <= e_v1 e < num_vertices (cm_mesh m) + 3)%nat /\ (num_vertices (cm_mesh m) <= e_v2 e < num_vertices (cm_mesh m) + 3)%nat) ->
  let m' := CMesh (cm_mesh (add_three a b c n m)) (cm_edges m ++ es) in
  cm_ok m' /\ visit_n (cm_mesh m') = Some (l ++ [(Tri a b c, n)]) /\
  forall k, edges_on m' k = edges_on m k ++ map (fun e => Some (nth (e_v1 e - num_vertices (cm_mesh m)) [a; b; c] a, nth (e_v2 e - num_vertices (cm_mesh m)) [a; b; c] a, n)) (filter (fun e => (e_plane e =? k)%nat) es).
Proof.
  intros O Vi E m'. destruct (three_ok a b c n m l O Vi) as [W V]. destruct O as [Wm Fe].
  assert (Sz : num_vertices (cm_mesh m') = (num_vertices (cm_mesh m) + 3)%nat /\ num_triangles (cm_mesh m') = (num_triangles (cm_mesh m) + 1)%nat).
  { unfold m'. cbn [cm_mesh]. rewrite three_mesh. unfold num_vertices, num_triangles. cbn [m_vertices m_triangles]. rewrite !app_length. cbn [length]. split; reflexivity. }
  destruct Sz as [S1 S2]. split; [|split; [exact V|]].
  - split; [exact W|]. apply Forall_app. split.
    + revert Fe. apply Forall_impl. intros e (A & B & C). unfold edge_ok. rewrite S1, S2. lia.
    + apply Forall_forall. intros e I. destruct (E e I) as (A & B & C). unfold edge_ok. rewrite S1, S2. lia.
  - intros k. rewrite !edges_on_val. unfold m'. cbn [cm_mesh cm_edges]. rewrite filter_app, map_app. f_equal.
    + apply map_ext_in. intros e I. apply filter_In in I as [I _]. apply (grows_val m); [exact Wm | apply three_grows|]. rewrite Forall_forall in Fe. apply Fe, I.
    + apply map_ext_in. intros e I. apply filter_In in I as [I _]. destruct (E e I) as (A & B & C). unfold edge_val. rewrite three_mesh. cbn [m_vertices m_normals].
      unfold num_vertices in *. assert (Ln := proj1 Wm). rewrite !nth_error_app2 by (unfold num_triangles in A; lia). unfold num_triangles in A.
      rewrite A, Ln, Nat.sub_diag. cbn [nth_error].
      rewrite !(nth_error_nth' _ a) by (cbn [length]; lia). reflexivity.
Qed.
Lemma fan_edges a b nv nt ks : forall m,
  fold_left (fun m k => if c_on a k && c_on b k then cm_add_edge m (Edge k nv (nv + 1) nt) else m) ks m =
  CMesh (cm_mesh m) (cm_edges m ++ map (fun k => Edge k nv (nv + 1) nt) (filter (fun k => c_on a k && c_on b k) ks)).
Proof.
  induction ks as [|k ks IH]; intros m; cbn [fold_left filter]; [cbn [map]; rewrite app_nil_r; destruct m; reflexivity|].
  rewrite IH. destruct (c_on a k && c_on b k); [|reflexivity]. cbn [cm_add_edge cm_mesh cm_edges map]. rewrite <- app_assoc. reflexivity.
Qed.
Lemma filter_map {A B} (f : A -> B) (p : B -> bool) l : filter p (map f l) = map f (filter (fun a => p (f a)) l).
Proof. induction l as [|a l IH]; [reflexivity|]. cbn [map filter]. rewrite IH. destruct (p (f a)); reflexivity. Qed.
Lemma filter_eqb (g : nat -> bool) k : (k < 6)%nat -> filter (fun j => (j =? k)%nat) (filter g (seq 0 6)) = if g k then [k] else [].
Proof.
  intros K. assert (C : forall l, filter (fun j => (j =? k)%nat) (filter g l) = filter g (filter (fun j => (j =? k)%nat) l)).
  { induction l as [|x l IH]; [reflexivity|]. cbn [filter]. destruct (g x) eqn:G, ((x =? k)%nat) eqn:X; cbn [filter]; rewrite ?G, ?X, IH; reflexivity. }
  rewrite C. destruct k as [|[|[|[|[|[|k]]]]]]; try lia; cbn [seq filter Nat.eqb]; reflexivity.
Qed.
Lemma fan_ok z n a b m l : cm_ok m -> visit_n (cm_mesh m) = Some l ->
  let m' := add_fan z n a b m in
  cm_ok m' /\ visit_n (cm_mesh m') = Some (l ++ [(fan_tri z (a, b), n)]) /\
  forall k, (k < 6)%nat -> edges_on m' k = edges_on m k ++ (if both_on k (a, b) then [Some (c_pos a, c_pos b, n)] else []).
Proof.
  intros O Vi m'. unfold m', add_fan. rewrite fan_edges.
  set (es := map _ (filter _ (seq 0 6))). destruct (add_edges_ok (c_pos a) (c_pos b) z n m es l O Vi) as (A & B & C).
  { intros e I. apply in_map_iff in I as (k & <- & _). cbn [e_normal e_v1 e_v2]. split; [reflexivity | lia]. }
  split; [exact A|]. split; [exact B|]. intros k K. change (cm_edges (add_three (c_pos a) (c_pos b) z n m)) with (cm_edges m). rewrite C. f_equal.
  unfold es. rewrite filter_map. cbn [e_plane]. rewrite (filter_eqb (fun k => c_on a k && c_on b k) k K). unfold both_on. cbn [fst snd].
  destruct (c_on a k && c_on b k); [|reflexivity]. cbn [map e_v1 e_v2]. rewrite Nat.sub_diag. replace (num_vertices (cm_mesh m) + 1 - num_vertices (cm_mesh m))%nat with 1%nat by lia. reflexivity.
Qed.
Lemma fans_ok z n vs : forall a m l, cm_ok m -> visit_n (cm_mesh m) = Some l ->
  let m' := add_fans z n a vs m in
  cm_ok m' /\ visit_n (cm_mesh m') = Some (l ++ map (fun ab => (fan_tri z ab, n)) (pairs a vs)) /\
  forall k, (k < 6)%nat -> edges_on m' k = edges_on m k ++ map (fun ab => Some (c_pos (fst ab), c_pos (snd ab), n)) (filter (both_on k) (pairs a vs)).
Proof.
  induction vs as [|b vs IH]; intros a m l O Vi; cbn [add_fans pairs map filter].
  - split; [exact O|]. split; [rewrite app_nil_r; exact Vi|]. intros k _. rewrite app_nil_r. reflexivity.
  - destruct (fan_ok z n a b m l O Vi) as (A & B & C). destruct (IH b (add_fan z n a b m) _ A B) as (A' & B' & C').
    split; [exact A'|]. split; [rewrite B', <- app_assoc; reflexivity|]. intros k K. rewrite (C' k K), (C k K), <- app_assoc. f_equal.
    destruct (both_on k (a, b)); reflexivity.
Qed.
Lemma fans_app z n vs : forall a b m, add_fan z n (last vs a) b (add_fans z n a vs m) = add_fans z n a (vs ++ [b]) m.
Proof. induction vs as [|c vs IH]; intros a b m; [reflexivity|]. rewrite last_cons. cbn [app add_fans]. apply IH. Qed.

(** *** Polygons with three vertices *)
Definition own_edges (a b c : cvert) (nv nt k : nat) : list edge :=
  if c_on a k && c_on b k then [Edge k nv (nv + 1) nt] else if c_on b k && c_on c k then [Edge k (nv + 1) (nv + 2) nt]
  else if c_on c k && c_on a k then [Edge k (nv + 2) nv nt] else [].
Lemma tri_edges_ok a b c nv nt ks : forall m, (forall k, In k ks -> c_on a k && c_on b k && c_on c k = false) ->
  fold_left (tri_edges a b c nv nt) ks (Some m) = Some (CMesh (cm_mesh m) (cm_edges m ++ flat_map (own_edges a b c nv nt) ks)).
Proof.
  induction ks as [|k ks IH]; intros m H; cbn [fold_left flat_map]; [rewrite app_nil_r; destruct m; reflexivity|].
  unfold tri_edges at 2. cbn [and_then]. rewrite (H k (or_introl eq_refl)). rewrite IH by (intros j J; apply H; right; exact J). unfold own_edges at 2.
  destruct (c_on a k && c_on b k); [|destruct (c_on b k && c_on c k); [|destruct (c_on c k && c_on a k)]]; cbn [cm_add_edge cm_mesh cm_edges app]; rewrite <- ?app_assoc; reflexivity.
Qed.
Lemma tri_edges_none a b c nv nt ks m : (exists k, In k ks /\ c_on a k && c_on b k && c_on c k = true) -> fold_left (tri_edges a b c nv nt) ks m = None.
Proof.
  assert (N : forall ks, fold_left (tri_edges a b c nv nt) ks None = None) by (induction ks0 as [|k ks' IH]; [reflexivity | exact IH]).
  revert m. induction ks as [|k ks IH]; intros m (j & I & E); [destruct I|]. destruct I as [<-|I].
  - cbn [fold_left]. assert (Z : tri_edges a b c nv nt m k = None) by (unfold tri_edges; destruct m; cbn [and_then]; [rewrite E|]; reflexivity). rewrite Z. apply N.
  - apply (IH (tri_edges a b c nv nt m k)). exists j. split; assumption.
Qed.
Lemma own_filter a b c nv nt k : (k < 6)%nat -> filter (fun e => (e_plane e =? k)%nat) (flat_map (own_edges a b c nv nt) (seq 0 6)) = own_edges a b c nv nt k.
Proof.
  intros K. assert (G : forall j, filter (fun e => (e_plane e =? k)%nat) (own_edges a b c nv nt j) = if (j =? k)%nat then own_edges a b c nv nt j else []).
  { intros j. unfold own_edges. destruct (c_on a j && c_on b j); [|destruct (c_on b j && c_on c j); [|destruct (c_on c j && c_on a j)]]; cbn [filter e_plane]; destruct (j =? k)%nat; reflexivity. }
  cbn [seq flat_map]. rewrite !filter_app, !G. destruct k as [|[|[|[|[|[|k]]]]]]; try lia; cbn [Nat.eqb]; rewrite ?app_nil_r; reflexivity.
Qed.

(** *** The whole polygon *)
Definition all_on (l : list cvert) (k : nat) : bool := forallb (fun v => c_on v k) l.
Definition blocked (p : polygon) : Prop := length (p_vertices p) = 3%nat /\ exists k, (k < 6)%nat /\ all_on (p_vertices p) k = true.
Lemma blocked_none p m : blocked p -> add_to_mesh p m = None.
Proof.
  intros [L (k & K & A)]. unfold add_to_mesh. destruct (p_vertices p) as [|a [|b [|c [|d l]]]]; try discriminate.
  apply tri_edges_none. exists k. split; [apply in_seq; lia|]. cbn [all_on forallb] in A. rewrite andb_true_r, andb_assoc in A. exact A.
Qed.
Lemma add_to_mesh_ok p m l : cm_ok m -> visit_n (cm_mesh m) = Some l -> ~ blocked p -> exists m',
  add_to_mesh p m = Some m' /\ cm_ok m' /\ visit_n (cm_mesh m') = Some (l ++ map (fun t => (t, p_normal p)) (poly_tris (p_vertices p))) /\
  forall k, (k < 6)%nat -> edges_on m' k = edges_on m k ++ poly_edges (p_vertices p) (p_normal p) k.
Proof.
  intros O Vi B. unfold add_to_mesh. destruct p as [vs n]. cbn [p_vertices p_normal] in *.
  assert (Triv : exists m', Some m = Some m' /\ cm_ok m' /\ visit_n (cm_mesh m') = Some (l ++ map (fun t => (t, n)) []) /\ forall k, (k < 6)%nat -> edges_on m' k = edges_on m k ++ []).
  { exists m. split; [reflexivity|]. split; [exact O|]. split; [cbn [map]; rewrite app_nil_r; exact Vi|]. intros k _. rewrite app_nil_r. reflexivity. }
  destruct vs as [|a [|b [|c [|d r]]]]; try exact Triv; clear Triv.
  - assert (H : forall k, In k (seq 0 6) -> c_on a k && c_on b k && c_on c k = false).
    { intros k I. apply in_seq in I. destruct (c_on a k && c_on b k && c_on c k) eqn:E; [|reflexivity]. exfalso. apply B. split; [reflexivity|].
      exists k. split; [lia|]. cbn [p_vertices all_on forallb]. rewrite andb_true_r, andb_assoc. exact E. }
    rewrite tri_edges_ok by exact H. eexists. split; [reflexivity|]. change (cm_edges (add_three (c_pos a) (c_pos b) (c_pos c) n m)) with (cm_edges m).
    destruct (add_edges_ok (c_pos a) (c_pos b) (c_pos c) n m (flat_map (own_edges a b c (num_vertices (cm_mesh m)) (num_triangles (cm_mesh m))) (seq 0 6)) l O Vi) as (A & V & C).
    { intros e I. apply in_flat_map in I as (k & _ & I). unfold own_edges in I.
      destruct (c_on a k && c_on b k); [|destruct (c_on b k && c_on c k); [|destruct (c_on c k && c_on a k)]]; [destruct I as [<-|[]].. | destruct I]; cbn [e_normal e_v1 e_v2]; split; try reflexivity; lia. }
    split; [exact A|]. split; [exact V|]. intros k K. rewrite C, own_filter by exact K. f_equal.
    specialize (H k ltac:(apply in_seq; lia)). unfold poly_edges, own_edges, ring. cbn [app combine filter]. unfold both_on. cbn [fst snd].
    assert (S0 : (num_vertices (cm_mesh m) + 1 - num_vertices (cm_mesh m) = 1)%nat) by lia. assert (S1 : (num_vertices (cm_mesh m) + 2 - num_vertices (cm_mesh m) = 2)%nat) by lia.
    destruct (c_on a k), (c_on b k), (c_on c k); try discriminate; cbn [andb map fst snd e_v1 e_v2]; rewrite ?Nat.sub_diag, ?S0, ?S1; reflexivity.
  - set (vs := a :: b :: c :: d :: r). cbv zeta. eexists. split; [reflexivity|].
    assert (E : last vs a = last (b :: c :: d :: r) a) by (unfold vs; rewrite last_cons; reflexivity). rewrite E, fans_app.
    destruct (fans_ok (centroid vs) n ((b :: c :: d :: r) ++ [a]) a m l O Vi) as (A & V & C).
    assert (Er : ring vs = pairs a ((b :: c :: d :: r) ++ [a])) by (unfold ring, vs; apply ring_pairs).
    split; [exact A|]. split.
    + rewrite V. f_equal. f_equal. change (poly_tris vs) with (map (fan_tri (centroid vs)) (ring vs)). rewrite map_map, Er. reflexivity.
    + intros k K. rewrite (C k K). f_equal. change (poly_edges vs n k) with (map (fun ab => Some (c_pos (fst ab), c_pos (snd ab), n)) (filter (both_on k) (ring vs))).
      rewrite Er. reflexivity.
Qed.

(** *** Area *)
(** Twice the area vector of a closed polygon. *)
Definition poly_vector (l : list pt) : pt := fold_right (fun ab acc => vadd (cross (fst ab) (snd ab)) acc) (Pt 0 0 0) (ring l).
Definition vsum (l : list pt) : pt := fold_right vadd (Pt 0 0 0) l.
Lemma vector_sum z l : forall a, let prs := combine (a :: l) (l ++ [z]) in
  forall w d, at_ d (vsum (map (fun ab => area2 (Tri (fst ab) (snd ab) w)) prs)) =
  at_ d (fold_right (fun ab acc => vadd (cross (fst ab) (snd ab)) acc) (Pt 0 0 0) prs) + at_ d (cross z w) - at_ d (cross a w).
Proof.
  induction l as [|b l IH]; intros a prs w d.
  - unfold prs. cbn [app combine map fold_right vsum fst snd]. unfold area2, cross, vsub, vadd. destruct d; cbn [at_ px py pz P1 P2 P3]; ring.
  - unfold prs. cbn [app combine map fold_right vsum fst snd]. specialize (IH b w d). cbv zeta in IH. change (combine (b :: l) (l ++ [z])) with (combine (b :: l) (l ++ [z])) in IH.
    set (X := vsum (map (fun ab => area2 (Tri (fst ab) (snd ab) w)) (combine (b :: l) (l ++ [z])))) in *.
    set (Y := fold_right (fun ab acc => vadd (cross (fst ab) (snd ab)) acc) (Pt 0 0 0) (combine (b :: l) (l ++ [z]))) in *.
    change (at_ d (vadd (area2 (Tri a b w)) X) = at_ d (vadd (cross a b) Y) + at_ d (cross z w) - at_ d (cross a w)).
    assert (Ea : forall u v, at_ d (vadd u v) = at_ d u + at_ d v) by (intros u v; destruct d; reflexivity). rewrite !Ea, IH.
    assert (Et : at_ d (area2 (Tri a b w)) = at_ d (cross a b) + at_ d (cross b w) - at_ d (cross a w)).
    { unfold area2, cross, vsub. destruct d; cbn [at_ px py pz P1 P2 P3]; ring. }
    rewrite Et. ring.
Qed.
Lemma combine_map {A B} (f : A -> B) l l' : combine (map f l) (map f l') = map (fun ab => (f (fst ab), f (snd ab))) (combine l l').
Proof. revert l'. induction l as [|a l IH]; intros [|b l']; [reflexivity..|]. cbn [map combine fst snd]. rewrite IH. reflexivity. Qed.
Lemma ring_map {A B} (f : A -> B) l : ring (map f l) = map (fun ab => (f (fst ab), f (snd ab))) (ring l).
Proof.
  destruct l as [|a l]; [reflexivity|]. unfold ring. cbn [map]. rewrite <- combine_map. f_equal. rewrite map_app. reflexivity.
Qed.
(** The area vectors of the triangles add up to the one of the polygon, for all polygons. *)
Lemma tris_vector l : (3 <= length l)%nat -> vsum (map area2 (poly_tris l)) = poly_vector (map c_pos l).
Proof.
  intros L. destruct l as [|a [|b [|c [|d r]]]]; cbn [length] in L; try lia.
  - unfold poly_tris, poly_vector, ring. cbn [map app combine fold_right vsum fst snd]. apply pt_eq. intros []; unfold area2, cross, vsub, vadd; cbn [at_ px py pz P1 P2 P3]; ring.
  - set (l := a :: b :: c :: d :: r). change (poly_tris l) with (map (fan_tri (centroid l)) (ring l)). set (w := centroid l).
    apply pt_eq. intros x. unfold poly_vector. rewrite ring_map.
    assert (E : map area2 (map (fan_tri w) (ring l)) = map (fun ab => area2 (Tri (fst ab) (snd ab) w)) (map (fun ab => (c_pos (fst ab), c_pos (snd ab))) (ring l))).
    { rewrite !map_map. reflexivity. }
    rewrite E, <- ring_map. unfold l at 1 2. cbn [map]. unfold ring. rewrite vector_sum. ring.
Qed.
(** *** Polygons from clipping *)
Definition hull3 (l : list pt) (x : pt) : Prop := forall C : pt -> Prop,
  (forall p q s, C p -> C q -> 0 <= s <= 1 -> C (vadd (vscale (1 - s) p) (vscale s q))) -> (forall v, In v l -> C v) -> C x.
Lemma pos2_mix' t s p q : pos2 t (mix s p q) = vadd (vscale (1 - s) (pos2 t p)) (vscale s (pos2 t q)).
Proof. apply pt_eq. intros d. rewrite pos2_mix. unfold vadd, vscale. destruct d; cbn [at_ px py pz]; ring. Qed.
Lemma hull_pos t l x : hull l x -> hull3 (map (pos2 t) l) (pos2 t x).
Proof.
  intros H C HC I. apply (H (fun q => C (pos2 t q))).
  - intros p q s Hp Hq Hs. rewrite pos2_mix'. apply HC; assumption.
  - intros v Iv. apply I, in_map, Iv.
Qed.
Lemma start_hull t q : hull (map w_q start) q -> in_triangle t (pos2 t q).
Proof.
  intros H. cbn [map start corner w_q] in H.
  assert (G : 0 <= fst q /\ 0 <= snd q /\ fst q + snd q <= 1).
  { apply (H (fun q => 0 <= fst q /\ 0 <= snd q /\ fst q + snd q <= 1)).
    - intros u v s (A & B & C) (A' & B' & C') S. unfold mix. cbn [fst snd]. repeat split; nra.
    - intros v [<-|[<-|[<-|[]]]]; cbn [fst snd]; lra. }
  destruct G as (A & B & C). exists (1 - fst q - snd q), (fst q), (snd q). split; [lra|]. split; [lra|]. split; [lra|]. split; [lra|].
  apply pt_eq. intros d. rewrite at_pos2. unfold vadd, vscale. destruct d; cbn [at_ px py pz]; ring.
Qed.
Lemma triangle_hull t p : in_triangle t p -> exists q, p = pos2 t q /\ hull (map w_q start) q.
Proof.
  intros (a & b & c & A & B & C & S & ->). exists (b, c). split.
  - apply pt_eq. intros d. rewrite at_pos2. cbn [fst snd]. unfold vadd, vscale. assert (Ea : a = 1 - b - c) by lra. rewrite Ea. destruct d; cbn [at_ px py pz]; ring.
  - intros K HK I. assert (I0 := I (0, 0) (or_introl eq_refl)). assert (I1 := I (1, 0) (or_intror (or_introl eq_refl))). assert (I2 := I (0, 1) (or_intror (or_intror (or_introl eq_refl)))).
    destruct (Req_dec b 1) as [->|Nb].
    + assert (c = 0) as -> by lra. exact I1.
    + assert (P : K (0, c / (1 - b))).
      { assert (T : 0 <= c / (1 - b) <= 1).
        { assert (0 < 1 - b) by lra. split; [apply Rmult_le_pos; [lra | apply Rlt_le, Rinv_0_lt_compat; lra]|]. apply Rmult_le_reg_r with (1 - b); [lra|]. unfold Rdiv. rewrite Rmult_assoc, Rinv_l by lra. lra. }
        replace (0, c / (1 - b)) with (mix (c / (1 - b)) (0, 0) (0, 1)); [apply HK; assumption|]. unfold mix. cbn [fst snd]. f_equal; ring. }
      replace (b, c) with (mix b (0, c / (1 - b)) (1, 0)); [apply HK; [exact P | exact I1 | lra]|]. unfold mix. cbn [fst snd]. f_equal; field; lra.
Qed.
(** The centroid is in the convex hull. *)
Definition sum2 (f : p2 -> R) (l : list p2) : R := fold_right (fun p acc => f p + acc) 0 l.
Definition centroid2 (l : list p2) : p2 := (sum2 fst l / INR (length l), sum2 snd l / INR (length l)).
Lemma hull_cons a l x : hull l x -> hull (a :: l) x.
Proof. apply hull_mono. intros v I. apply hull_in. right; exact I. Qed.
Lemma centroid_hull l : l <> [] -> hull l (centroid2 l).
Proof.
  induction l as [|a l IH]; [congruence|]. intros _. destruct l as [|b l].
  - unfold centroid2, sum2. cbn [fold_right length INR]. replace ((fst a + 0) / 1, (snd a + 0) / 1) with a; [apply hull_in; left; reflexivity|]. destruct a. cbn [fst snd]. f_equal; field.
  - assert (H := IH ltac:(discriminate)). apply (hull_cons a) in H. set (r := b :: l) in *. assert (P : 0 < INR (length r)) by (apply lt_0_INR; unfold r; cbn [length]; lia).
    assert (E : centroid2 (a :: r) = mix (INR (length r) / (INR (length r) + 1)) a (centroid2 r)).
    { unfold centroid2, mix. cbn [fst snd]. change (length (a :: r)) with (S (length r)). rewrite S_INR. change (sum2 fst (a :: r)) with (fst a + sum2 fst r). change (sum2 snd (a :: r)) with (snd a + sum2 snd r).
      f_equal; field; lra. }
    rewrite E. apply hull_convex; [apply hull_in; left; reflexivity | exact H|]. split.
    + apply Rmult_le_pos; [lra | apply Rlt_le, Rinv_0_lt_compat; lra].
    + apply Rmult_le_reg_r with (INR (length r) + 1); [lra|]. unfold Rdiv. rewrite Rmult_assoc, Rinv_l by lra. lra.
Qed.
Lemma centroid_pos t ws : ws <> [] -> centroid (map (emb t) ws) = pos2 t (centroid2 (map w_q ws)).
Proof.
  intros N. assert (F : forall l acc d, at_ d (fold_left (fun acc v => vadd acc (c_pos v)) (map (emb t) l) acc) =
    at_ d acc + INR (length l) * at_ d (P1 t) + sum2 fst (map w_q l) * (at_ d (P2 t) - at_ d (P1 t)) + sum2 snd (map w_q l) * (at_ d (P3 t) - at_ d (P1 t))).
  { induction l as [|w l IH]; intros acc d; cbn [map fold_left length]; [unfold sum2; cbn [INR fold_right]; ring|]. rewrite IH, S_INR.
    assert (Ea : at_ d (vadd acc (c_pos (emb t w))) = at_ d acc + at_ d (pos2 t (w_q w))) by (destruct d; reflexivity). rewrite Ea, at_pos2.
    change (sum2 fst (w_q w :: map w_q l)) with (fst (w_q w) + sum2 fst (map w_q l)). change (sum2 snd (w_q w :: map w_q l)) with (snd (w_q w) + sum2 snd (map w_q l)). ring. }
  assert (P : 0 < INR (length ws)) by (apply lt_0_INR; destruct ws; [congruence | cbn [length]; lia]).
  apply pt_eq. intros d. rewrite at_pos2. unfold centroid, centroid2. cbn [fst snd]. rewrite !map_length.
  assert (Es : forall s v, at_ d (vscale s v) = s * at_ d v) by (intros s v; destruct d; reflexivity). rewrite Es, F.
  assert (Z : at_ d (Pt 0 0 0) = 0) by (destruct d; reflexivity). rewrite Z. field. lra.
Qed.
Lemma pos2_area t a b c : area2 (Tri (pos2 t a) (pos2 t b) (pos2 t c)) = vscale (orient a b c) (area2 t).
Proof. unfold area2, orient, cr, pos2, vadd, vscale, vsub, cross. cbn [P1 P2 P3 px py pz]. f_equal; ring. Qed.
