(** C54: the triangulation of a face from the contour edges that lie in its plane. *)
From Coq Require Import Reals List Arith Bool Permutation Lia Lra.
From Verif Require Import Geo MappingModel MeshModel MeshProofs MeshGeoModel MeshGeoProofs ClipModel ClipMeshProofs GeoQueryModel SatMain DomainModel DomainProps ContourModel ContourProofs ContourFace ContourWitness ContourGeo ContourArea ContourInput.
Import ListNotations.
Local Open Scope R_scope.

Definition permutes {A} (f : list A -> list A) : Prop := forall l, Permutation l (f l).
Lemma made_axes index upper lo hi switch pl : make_plane index upper lo hi switch = Some pl ->
  (d1 pl <> d2 pl /\ d1 pl <> d3 pl /\ d2 pl <> d3 pl) /\ pl_lo pl = lo /\ pl_hi pl = hi /\ pl_upper pl = upper /\ at_ (d3 pl) = at_ (match index with 0%nat => AX | 1%nat => AY | _ => AZ end).
Proof.
  destruct index as [|[|[|i]]]; cbn [make_plane]; intros E; try discriminate E; destruct switch; injection E as <-; cbn; repeat split; discriminate.
Qed.

(** *** No use of an iterator that is invalid, and no access out of bounds *)
(** With the reservation of the code: for a set whose search finds an equivalent vertex if there is one, any sort, any answer
    of the inside test, and ends that are on the upper side up to the tolerance or further away than ten times the tolerance. *)
Theorem C54_safe : forall index upper lo hi switch pl lookup sort_points sort_edges inside es,
  make_plane index upper lo hi switch = Some pl -> sound pl lookup -> complete pl lookup -> permutes sort_points -> (forall vs, permutes (sort_edges vs)) ->
  (forall e v, In e es -> v = at_ (d2 pl) (fst (fst e)) \/ v = at_ (d2 pl) (snd (fst e)) -> Rabs (v - top2 pl) <= snap pl \/ 10 * snap pl <= Rabs (v - top2 pl)) ->
  exists m, face_mesh pl lookup sort_points sort_edges inside es = Some m.
Proof.
  intros index upper lo hi switch pl lookup sort_points sort_edges inside es _ Hl Hc Hs He Cl.
  destruct (run_ok pl lookup sort_points sort_edges inside Hs He (reserved es) es (fun _ => True) (fun _ => True)) as (s0 & s & s' & m & H1 & _ & H2 & H3 & _); auto.
  - right. split; [apply le_n|]. split; [exact Hl|]. split; [exact Hc|]. intros p q n I. split; intros L.
    + destruct (Cl _ (at_ (d2 pl) p) I (or_introl eq_refl)) as [X|X]; [cbn in L; lra|exact X].
    + destruct (Cl _ (at_ (d2 pl) q) I (or_intror eq_refl)) as [X|X]; [cbn in L; lra|exact X].
  - exists m. unfold face_mesh. rewrite H1. cbn [and_then]. rewrite H2. exact H3.
Qed.
Print Assumptions C54_safe.

(** Without the guard: four edges that end five tolerances below the upper side. *)
Theorem C54_growth_refuted : exists pl lookup sort_points sort_edges es, make_plane 2 false (Pt 0 0 0) (Pt 1 1 1) false = Some pl /\
  sound pl lookup /\ complete pl lookup /\ permutes sort_points /\ (forall vs, permutes (sort_edges vs)) /\
  (forall e p, In e es -> p = fst (fst e) \/ p = snd (fst e) -> forall a, at_ a (Pt 0 0 0) <= at_ a p <= at_ a (Pt 1 1 1)) /\
  forall inside, face_mesh pl lookup sort_points sort_edges inside es = None.
Proof.
  exists unit_plane, (search (snap unit_plane)), point_sort, top_sort, growth_edges. split; [exact unit_made|]. split; [apply search_sound|]. split; [apply search_complete|]. split; [intros l; apply sort_by_perm|]. split; [intros vs l; apply sort_by_perm|]. split; [|intros inside; apply growth_none].
  pose proof t_small as T. intros e p I Hp a. cbn in I. destruct I as [<-|[<-|[<-|[<-|[]]]]]; cbn [fst snd] in Hp; destruct Hp as [-> | ->]; destruct a; cbn [at_ px py pz]; lra.
Qed.
Print Assumptions C54_growth_refuted.

(** A reservation of six times the number of the edges, and ten, is enough for every contour and every search tree. *)
Theorem C54_larger_reservation : forall index upper lo hi switch pl lookup sort_points sort_edges inside es cap,
  make_plane index upper lo hi switch = Some pl -> permutes sort_points -> (forall vs, permutes (sort_edges vs)) -> (6 * length es + 10 <= cap)%nat ->
  exists s0 s m, collect pl lookup cap es empty_state = Some s0 /\ close_contour pl lookup sort_points sort_edges inside cap s0 = Some s /\ triangulate_domain pl inside s = Some m.
Proof.
  intros index upper lo hi switch pl lookup sort_points sort_edges inside es cap _ Hs He Cap.
  destruct (run_ok pl lookup sort_points sort_edges inside Hs He cap es (fun _ => True) (fun _ => True)) as (s0 & s & s' & m & H1 & _ & H2 & H3 & _); auto. exists s0, s', m. auto.
Qed.
Print Assumptions C54_larger_reservation.

(** *** The triangles lie on the face *)
Theorem C54_on_face : forall index upper lo hi switch pl lookup sort_points sort_edges inside es m dl,
  make_plane index upper lo hi switch = Some pl -> permutes sort_points -> (forall vs, permutes (sort_edges vs)) ->
  (forall a, at_ a lo <= at_ a hi) -> 0 <= dl ->
  (forall e p, In e es -> p = fst (fst e) \/ p = snd (fst e) -> forall a, at_ a lo - dl <= at_ a p <= at_ a hi + dl) ->
  face_mesh pl lookup sort_points sort_edges inside es = Some m ->
  let across := match index with 0%nat => AX | 1%nat => AY | _ => AZ end in
  cm_ok m /\ exists ts, visit_n (cm_mesh m) = Some (map (fun t => (t, set_at across (if upper then 1 else -1) (Pt 0 0 0))) ts) /\
  forall t p, In t ts -> p = P1 t \/ p = P2 t \/ p = P3 t ->
    at_ across p = at_ across (if upper then hi else lo) /\ forall a, at_ a lo - dl <= at_ a p <= at_ a hi + dl.
Proof.
  intros index upper lo hi switch pl lookup sort_points sort_edges inside es m dl M Hs He Box Dl In_ F across.
  destruct (made_axes _ _ _ _ _ _ M) as (Ax & Lo & Hi & Up & D3).
  assert (R1 : forall k, at_ k lo - dl <= at_ k hi + dl) by (intros k; specialize (Box k); lra).
  destruct (face_mesh_shape pl lookup sort_points sort_edges inside Hs He dl Dl Ax) with (es := es) (m := m) as (OK & ts & V & T).
  - unfold bottom2, top2. rewrite Lo, Hi. apply Box.
  - unfold left1, right1. rewrite Lo, Hi. apply Box.
  - exact F.
  - intros p q n I. unfold in_face2, left1, right1, bottom2, top2, project. cbn [fst snd]. rewrite Lo, Hi. split; split; apply (In_ (p, q, n)); auto.
  - split; [exact OK|]. exists ts.
    assert (Dx : d3 pl = across). { unfold across. destruct index as [|[|[|i]]]; cbn [make_plane] in M; try discriminate M; destruct switch; injection M as <-; reflexivity. }
    split; [unfold face_normal in V; rewrite Dx, Up in V; exact V|].
    intros t p It Hp. rewrite Forall_forall in T. specialize (T t It). assert (O : on_face pl dl p) by (destruct t; cbn in T, Hp; destruct Hp as [-> | [-> | ->]]; apply T). destruct O as [O1 O2].
    unfold position in O2. rewrite Up, Dx, Lo, Hi in O2. assert (Z : at_ across p = at_ across (if upper then hi else lo)) by (rewrite O2; destruct upper; reflexivity). split; [exact Z|].
    unfold in_face2, left1, right1, bottom2, top2, project in O1. cbn [fst snd] in O1. rewrite Lo, Hi in O1. destruct O1 as [O1 O3]. intros a.
    assert (Cs : a = d1 pl \/ a = d2 pl \/ a = across). { rewrite <- Dx. destruct Ax as (A1 & A2 & A3). destruct a, (d1 pl), (d2 pl), (d3 pl); tauto. }
    destruct Cs as [-> | [-> | ->]]; [exact O1|exact O3|]. rewrite Z. pose proof (Box across). destruct upper; lra.
Qed.
Print Assumptions C54_on_face.

(** *** The area *)
(** The edges that close the contour: the given ones that bound the region from above, and the upper side of the face if the
    region above all of them is inside. *)
Definition upper_edges (pl : plane) (inside : pt -> bool) (es : list (pt * pt * pt)) (h : R) : list (point2 * point2) := map fst (closed pl inside es h).
Definition lower_edges (pl : plane) (es : list (pt * pt * pt)) : list (point2 * point2) := map fst (given pl (negative pl) es).
(** The signed area between segments and the lower side of the face. *)
Definition area_under (c : R) (l : list (point2 * point2)) : R :=
  fold_right (fun s acc => (fst (snd s) - fst (fst s)) * ((snd (fst s) - c) + (snd (snd s) - c)) / 2 + acc) 0 l.
Lemma area_under_eq c l : area_under c l = sum_under c l.
Proof. unfold area_under, sum_under. induction l as [|s l IH]; [reflexivity|]. cbn [fold_right]. rewrite IH. unfold under. destruct s as [[x y] [x' y']]. cbn [fst snd]. lra. Qed.
Theorem C54_area : forall index upper lo hi switch pl lookup sort_points sort_edges inside es h VP VN,
  make_plane index upper lo hi switch = Some pl -> sound pl lookup -> complete pl lookup ->
  permutes sort_points -> (forall l, nondecreasing (sort_points l)) -> (forall vs, permutes (sort_edges vs)) ->
  (forall a, at_ a lo < at_ a hi) -> left1 pl + snap pl < right1 pl ->
  (* the ends of the edges are equal or told apart, in the face and away from its upper side *)
  (forall u v, end_point pl es u -> end_point pl es v -> u = v \/ psame (snap pl) u v = false) ->
  (forall v, end_point pl es v -> bottom2 pl <= snd v /\ 10 * snap pl <= Rabs (snd v - top2 pl)) ->
  (* no edge that bounds the region from above is almost vertical *)
  (forall e, In e es -> positive pl e = true -> 2 * zerotol < snap pl * at_ (d2 pl) (snd e)) ->
  is_highest pl es h -> general pl (upper_edges pl inside es h) (lower_edges pl es) VP VN ->
  exists m ts, face_mesh pl lookup sort_points sort_edges inside es = Some m /\ cm_ok m /\
  visit_n (cm_mesh m) = Some (map (fun t => (t, face_normal pl)) ts) /\
  (forall t, In t ts -> cross (vsub (P2 t) (P1 t)) (vsub (P3 t) (P1 t)) = vscale (2 * tri_area t) (face_normal pl)) /\
  sum tri_area ts = area_under (bottom2 pl) (upper_edges pl inside es h) - area_under (bottom2 pl) (lower_edges pl es).
Proof.
  intros index upper lo hi switch pl lookup sort_points sort_edges inside es h VP VN M Hl Hc Hs Hn He Box W Sep Low St Hh G. destruct (made_axes _ _ _ _ _ _ M) as (_ & Lo & Hi & _).
  destruct (contour_area pl lookup sort_points sort_edges inside Hl Hc Hs Hn He es Sep (fun v I => proj2 (Low v I)) W) with (h := h) (VP := VP) (VN := VN) as (m & ts & F & OK & V & O & A).
  - exists index, upper, lo, hi, switch. exact M.
  - unfold bottom2, top2. rewrite Lo, Hi. left. apply Box.
  - intros v I. apply (Low v I).
  - intros e I. unfold given in I. apply in_map_iff in I. destruct I as (e0 & <- & I). apply filter_In in I. destruct I as [I P]. cbn [snd]. apply (St e0 I P).
  - exact Hh.
  - exact G.
  - exists m, ts. split; [exact F|]. split; [exact OK|]. split; [exact V|]. split; [intros t It; rewrite Forall_forall in O; exact (O t It)|]. rewrite !area_under_eq. exact A.
Qed.
Print Assumptions C54_area.

(** *** Cases that meet the hypotheses *)
(** A band between an edge and two lower edges whose common end lies below the middle of the upper one. *)
Definition band : list (pt * pt * pt) :=
  [ (Pt 0 (3 / 4) 0, Pt 1 (3 / 4) 0, Pt 0 1 0); (Pt (1 / 2) (1 / 4) 0, Pt 0 (1 / 4) 0, Pt 0 (-1) 0); (Pt (1 / 2) (1 / 4) 0, Pt 1 (1 / 4) 0, Pt 0 (-1) 0) ].
Notation upl := unit_plane.
Lemma unit_small : 0 < snap upl < / 1000000 /\ 0 < zerotol /\ 10 * zerotol < snap upl.
Proof.
  rewrite unit_snap. split; [exact t_small|]. unfold zerotol. assert (P : 0 < / 10 ^ 14) by (apply Rinv_0_lt_compat, pow_lt; lra). split; [exact P|].
  replace (/ 10 ^ 12) with (100 * / 10 ^ 14) by (field). lra.
Qed.
Ltac small_facts := destruct unit_small as (UT & UZ & UZ2).
Ltac cmp := repeat first [rewrite (Rabs_pos_eq (_ - _)) by lra | rewrite (Rabs_left1 (_ - _)) by lra | progress decide_cmp | progress cbn [fst snd andb negb map px py pz at_ d1 d2]].
Lemma unit_width : left1 upl + snap upl < right1 upl.
Proof. small_facts. unfold left1, right1. cbn [unit_plane d1 pl_lo pl_hi at_ px]. lra. Qed.
Lemma band_ends v : end_point upl band v -> v = (0, 3 / 4) \/ v = (1, 3 / 4) \/ v = (1 / 2, 1 / 4) \/ v = (0, 1 / 4) \/ v = (1, 1 / 4).
Proof. intros (e & I & H). destruct I as [<-|[<-|[<-|[]]]]; cbn in H; destruct H; auto. Qed.
Lemma band_positive : given upl (positive upl) band = [(((0, 3 / 4), (1, 3 / 4)), (0, 1))].
Proof.
  small_facts. unfold given, positive, wide, band. cbn [List.filter]. unfold run2, normal2, project. cbn [unit_plane d1 d2 at_ px py pz fst snd]. change (Plane AX AY AZ false false (Pt 0 0 0) (Pt 1 1 1)) with upl. cmp; reflexivity.
Qed.
Lemma band_negative : given upl (negative upl) band = [(((0, 1 / 4), (1 / 2, 1 / 4)), (0, -1)); (((1 / 2, 1 / 4), (1, 1 / 4)), (0, -1))].
Proof.
  small_facts. unfold given, negative, wide, band. cbn [List.filter]. unfold run2, normal2, project. cbn [unit_plane d1 d2 at_ px py pz fst snd]. change (Plane AX AY AZ false false (Pt 0 0 0) (Pt 1 1 1)) with upl. cmp; reflexivity.
Qed.
Lemma band_highest : is_highest upl band (3 / 4).
Proof.
  unfold is_highest. rewrite band_positive, band_negative. cbn [map app fst]. split; [right; exists ((0, 3 / 4), (1, 3 / 4)); cbn [In fst snd]; auto|]. split; [cbn; lra|].
  intros e [<-|[<-|[<-|[]]]]; cbn [fst snd]; lra.
Qed.
Lemma band_ht x : ht ((0, 3 / 4), (1, 3 / 4)) x = 3 / 4 /\ ht ((0, 1 / 4), (1 / 2, 1 / 4)) x = 1 / 4 /\ ht ((1 / 2, 1 / 4), (1, 1 / 4)) x = 1 / 4.
Proof. unfold ht, line_at. cbn [fst snd]. split; [|split]; field. Qed.
Lemma band_general : general upl (upper_edges upl (fun _ => false) band (3 / 4)) (lower_edges upl band) [(0, 3 / 4); (1, 3 / 4)] [(0, 1 / 4); (1 / 2, 1 / 4); (1, 1 / 4)].
Proof.
  small_facts. unfold upper_edges, lower_edges, closed. rewrite band_positive, band_negative. cbn [map app fst].
  set (e := ((0, 3 / 4), (1, 3 / 4))). set (f := ((0, 1 / 4), (1 / 2, 1 / 4))). set (g := ((1 / 2, 1 / 4), (1, 1 / 4))).
  assert (He : forall x, ht e x = 3 / 4) by (intros x; apply (band_ht x)). assert (Hf : forall x, ht f x = 1 / 4) by (intros x; apply (band_ht x)). assert (Hg : forall x, ht g x = 1 / 4) by (intros x; apply (band_ht x)).
  assert (Three : forall k, In k [e] \/ In k [f; g] -> k = e \/ k = f \/ k = g) by (intros k; cbn; intuition).
  assert (Xe : lx e = 0 /\ rx e = 1) by (unfold lx, rx; cbn; lra). assert (Xf : lx f = 0 /\ rx f = 1 / 2) by (unfold lx, rx; cbn; lra). assert (Xg : lx g = 1 / 2 /\ rx g = 1) by (unfold lx, rx; cbn; lra).
  constructor.
  - intros k Hk. destruct (Three k Hk) as [-> | [-> | ->]]; lra.
  - intros k [<-|[]]. cbn. auto.
  - intros k [<-|[<-|[]]]; cbn; auto.
  - intros v [<-|[<-|[]]]; exists e; cbn; auto.
  - intros v [<-|[<-|[<-|[]]]]; [exists f|exists f|exists g]; cbn; auto.
  - assert (e <> f) by (intros E; injection E; lra). assert (e <> g) by (intros E; injection E; lra). assert (f <> g) by (intros E; injection E; lra). cbn [app]. repeat constructor; cbn; intuition.
  - repeat constructor; cbn; [intros [E|[]]; injection E; lra|tauto].
  - repeat constructor; cbn; [intros [E|[E|[]]]; injection E; lra|intros [E|[]]; injection E; lra|tauto].
  - intros v w Iv Iw. cbn in Iv, Iw. destruct Iv as [<-|[<-|[<-|[<-|[<-|[]]]]]], Iw as [<-|[<-|[<-|[<-|[<-|[]]]]]]; cbn [fst]; first [left; reflexivity | right; rewrite Rabs_pos_eq by lra; lra | right; rewrite Rabs_left1 by lra; lra].
  - intros k l x Hk Hl D Ck Cl E. unfold cover, end_at in *. destruct (Three k Hk) as [-> | [-> | ->]], (Three l Hl) as [-> | [-> | ->]]; try congruence; rewrite ?He, ?Hf, ?Hg in E; try lra.
  - intros k l v Hk Hl _ _ _. destruct (Three k Hk) as [-> | [-> | ->]], (Three l Hl) as [-> | [-> | ->]]; rewrite ?He, ?Hf, ?Hg; first [left; reflexivity | right; rewrite Rabs_pos_eq by lra; lra | right; rewrite Rabs_left1 by lra; lra].
  - intros k l x [<-|[]] Hl _ _ _ L _. destruct (Three l Hl) as [-> | [-> | ->]]; rewrite ?He, ?Hf, ?Hg in L; [lra|left; reflexivity|right; left; reflexivity].
  - intros k l x Ik Hl _ _ _ L _. destruct (Three l Hl) as [-> | [-> | ->]]; [left; reflexivity| |]; destruct Ik as [<-|[<-|[]]]; rewrite ?He, ?Hf, ?Hg in L; lra.
  - intros k x Ik _ O. exists e. split; [left; left; reflexivity|]. unfold over in *. destruct Ik as [<-|[<-|[]]]; rewrite ?He, ?Hf, ?Hg; lra.
  - assert (B : 10 <= 10 ^ 15) by lra. intros k l v Hk Hl _ _ _. destruct (Three k Hk) as [-> | [-> | ->]], (Three l Hl) as [-> | [-> | ->]]; rewrite ?He, ?Hf, ?Hg; apply Rabs_def1; lra.
  - lra.
Qed.
Lemma unit_psame p q : snap upl <= Rabs (fst p - fst q) \/ snap upl < Rabs (snd p - snd q) -> psame (snap upl) p q = false.
Proof. intros H. destruct (psame (snap upl) p q) eqn:E; [|reflexivity]. apply psame_near in E. lra. Qed.
Example C54_area_met : exists m ts, face_mesh upl (search (snap upl)) point_sort top_sort (fun _ => false) band = Some m /\ visit_n (cm_mesh m) = Some (map (fun t => (t, Pt 0 0 (-1))) ts) /\ sum tri_area ts = 1 / 2.
Proof.
  small_facts. destruct (C54_area 2 false (Pt 0 0 0) (Pt 1 1 1) false upl (search (snap upl)) point_sort top_sort (fun _ => false) band (3 / 4) [(0, 3 / 4); (1, 3 / 4)] [(0, 1 / 4); (1 / 2, 1 / 4); (1, 1 / 4)]) as (m & ts & F & _ & V & _ & A).
  - exact unit_made.
  - apply search_sound.
  - apply search_complete.
  - intros l. apply sort_by_perm.
  - intros l. apply (sort_by_increasing (fun p : point2 => fst p)).
  - intros vs l. apply sort_by_perm.
  - intros []; cbn; lra.
  - exact unit_width.
  - intros u v Hu Hv. apply band_ends in Hu, Hv. destruct Hu as [-> | [-> | [-> | [-> | ->]]]], Hv as [-> | [-> | [-> | [-> | ->]]]]; first [left; reflexivity | right; apply unit_psame; cbn [fst snd]; first [left; rewrite Rabs_pos_eq by lra; lra | left; rewrite Rabs_left1 by lra; lra | right; rewrite Rabs_pos_eq by lra; lra | right; rewrite Rabs_left1 by lra; lra]].
  - intros v Hv. unfold bottom2, top2. cbn [unit_plane d2 pl_lo pl_hi at_ py]. change (Plane AX AY AZ false false (Pt 0 0 0) (Pt 1 1 1)) with upl. apply band_ends in Hv. destruct Hv as [-> | [-> | [-> | [-> | ->]]]]; cbn [snd]; (split; [lra|rewrite Rabs_left1 by lra; lra]).
  - intros e [<-|[<-|[<-|[]]]] Hp; cbn [unit_plane d2 at_ py snd]; change (Plane AX AY AZ false false (Pt 0 0 0) (Pt 1 1 1)) with upl; [lra| |]; exfalso; unfold positive, normal2, project in Hp; cbn [unit_plane d1 d2 at_ py snd] in Hp; rewrite andb_true_iff, rltb_true in Hp; lra.
  - exact band_highest.
  - exact band_general.
  - exists m, ts. split; [exact F|]. split; [exact V|]. rewrite A. unfold upper_edges, lower_edges, closed. rewrite band_positive, band_negative. cbn. lra.
Qed.
Example C54_safe_met : exists m, face_mesh upl (search (snap upl)) point_sort top_sort (fun _ => true) band = Some m.
Proof.
  small_facts. apply (C54_safe 2 false (Pt 0 0 0) (Pt 1 1 1) false); [exact unit_made|apply search_sound|apply search_complete|intros l; apply sort_by_perm|intros vs l; apply sort_by_perm|].
  intros e v I H. right. unfold top2. cbn [unit_plane d2 pl_hi at_ py] in *. change (Plane AX AY AZ false false (Pt 0 0 0) (Pt 1 1 1)) with upl. destruct I as [<-|[<-|[<-|[]]]]; cbn [fst snd py] in H; destruct H as [-> | ->]; rewrite Rabs_left1 by lra; lra.
Qed.
Example C54_on_face_met : exists m, face_mesh upl (search (snap upl)) point_sort top_sort (fun _ => true) band = Some m /\
  forall e p, In e band -> p = fst (fst e) \/ p = snd (fst e) -> forall a, at_ a (Pt 0 0 0) - 0 <= at_ a p <= at_ a (Pt 1 1 1) + 0.
Proof. destruct C54_safe_met as [m F]. exists m. split; [exact F|]. intros e p [<-|[<-|[<-|[]]]] [-> | ->] []; cbn; lra. Qed.
(** The contour of the counterexample, with the larger reservation. *)
Example C54_larger_reservation_met : exists s0 s m, collect upl (search (snap upl)) 34 growth_edges empty_state = Some s0 /\
  close_contour upl (search (snap upl)) point_sort top_sort (fun _ => true) 34 s0 = Some s /\ triangulate_domain upl (fun _ => true) s = Some m.
Proof. apply (C54_larger_reservation 2 false (Pt 0 0 0) (Pt 1 1 1) false); [exact unit_made|intros l; apply sort_by_perm|intros vs l; apply sort_by_perm|cbn; lia]. Qed.
