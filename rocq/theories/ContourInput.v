(** The closed contour in terms of the edges that are given: the containers hold exactly the given edges, and one more edge
    along the upper side if the contour stays away from it and the region above the contour is inside. *)
From Coq Require Import Reals List Arith Bool Permutation Lia Lra Psatz.
From Verif Require Import Geo MappingModel MeshModel MeshProofs MeshGeoModel MeshGeoProofs ClipModel ClipMeshProofs GeoQueryModel SatMain DomainModel DomainProps ContourModel ContourProofs ContourFace ContourGeo ContourArea.
Import ListNotations.
Local Open Scope R_scope.

Section Input.
Variable pl : plane.
Notation tol := (snap pl).
Variable lookup : list point2 -> point2 -> option nat.
Variable sort_points : list point2 -> list point2.
Variable sort_edges : list point2 -> list (edge2 * bool) -> list (edge2 * bool).
Variable inside : pt -> bool.
Hypothesis Hl : sound pl lookup.
Hypothesis Hc : complete pl lookup.
Hypothesis Hs : forall l, Permutation l (sort_points l).
Hypothesis Hsorted : forall l, nondecreasing (sort_points l).
Hypothesis He : forall vs l, Permutation l (sort_edges vs l).
Variable cap : nat.

Lemma psame_refl a : psame tol a a = true.
Proof.
  pose proof (snap_pos pl). unfold psame, pcmp. assert (E : rltb (Rabs (fst a - fst a)) tol = true) by (apply rltb_true; rewrite Rminus_diag_eq, Rabs_R0 by reflexivity; lra). rewrite E.
  assert (E2 : rltb (snd a) (snd a - tol) = false) by (apply rltb_false; lra). rewrite E2. reflexivity.
Qed.
Lemma psame_near a b : psame tol a b = true -> Rabs (fst a - fst b) < tol /\ Rabs (snd a - snd b) <= tol.
Proof.
  pose proof (snap_pos pl). unfold psame, pcmp. rewrite andb_true_iff, !negb_true_iff. rewrite (Rabs_minus_sym (fst b)). destruct (rltb (Rabs (fst a - fst b)) tol) eqn:E.
  - rewrite !rltb_false. apply rltb_true in E. intros [H1 H2]. split; [exact E|]. apply Rabs_le. lra.
  - intros [H1 H2]. exfalso. apply rltb_false in E. assert (X : ~ fst a <= fst b - tol) by (intros X; apply rleb_true in X; congruence). assert (Y : ~ fst b <= fst a - tol) by (intros Y; apply rleb_true in Y; congruence).
    apply Rnot_le_lt in X, Y. assert (Rabs (fst a - fst b) < tol) by (apply Rabs_def1; lra). lra.
Qed.

(** The points that may become vertices are equal or told apart. *)
Variable pts : point2 -> Prop.
Hypothesis sep : forall u v, pts u -> pts v -> u = v \/ psame tol u v = false.
Lemma sep_same u v : pts u -> pts v -> psame tol u v = true -> u = v.
Proof. intros H1 H2 E. destruct (sep u v H1 H2) as [X|X]; [exact X|congruence]. Qed.

Record exact (L : list (seg2 * point2)) (c : cont) : Prop := {
  ex_valid : valid c;
  ex_full : full c;
  ex_fresh : unsplit c;
  ex_segs : nsegs c = L;
  ex_nodup : NoDup (verts c);
  ex_used : forall v, In v (verts c) -> exists e, In e (segs c) /\ (v = fst e \/ v = snd e);
  ex_from : Forall pts (verts c);
  ex_size : (length (verts c) <= 2 * length L)%nat }.
Lemma segs_nsegs c : segs c = map fst (nsegs c).
Proof. unfold segs, nsegs. rewrite map_map. reflexivity. Qed.
Lemma exact_empty : exact [] empty_cont.
Proof. constructor; try reflexivity; try constructor; try constructor. intros v []. Qed.
Lemma exact_found L c p i : exact L c -> pts p -> find_vertex lookup c p = Some i -> nth_error (verts c) i = Some p.
Proof.
  intros X Hp F. destruct (full_found pl lookup c p i Hl (ex_full _ _ X) F) as (q & E & S). rewrite E. f_equal. apply sep_same; [|exact Hp|exact S]. pose proof (ex_from _ _ X) as Fr. rewrite Forall_forall in Fr. apply Fr. apply (nth_error_In _ _ E).
Qed.
Lemma exact_new L c p : exact L c -> find_vertex lookup c p = None -> ~ In p (verts c).
Proof. intros X F I. pose proof (full_not_found pl lookup c p Hl Hc (ex_full _ _ X) F p I) as E. rewrite psame_refl in E. discriminate E. Qed.
Lemma insert_exact L c a b n : exact L c -> pts a -> pts b -> a <> b -> (2 * length L + 2 <= cap)%nat -> exists c', insert_edge2 pl lookup cap a b n c = Some c' /\ exact (L ++ [((a, b), n)]) c'.
Proof.
  intros X Ha Hb D Cap. destruct (insert_edge2_ok pl lookup cap a b n c (ex_valid _ _ X)) as (c' & E & R); [pose proof (news_length lookup c a b); pose proof (ex_size _ _ X); lia|]. exists c'. split; [exact E|].
  destruct R as [[-> [U|(i & U1 & U2)]]|(i & j & Ed & Ev & Nij & V & Ns & E1 & E2)].
  - destruct (sep a b Ha Hb); congruence.
  - exfalso. apply D. apply (exact_found L c a i X Ha) in U1. apply (exact_found L c b i X Hb) in U2. congruence.
  - assert (N1 : nth i (verts c') (0, 0) = a). { destruct E1 as [E1|(k & F & Ek)]; [exact E1|]. apply (exact_found L c a k X Ha) in F. congruence. }
    assert (N2 : nth j (verts c') (0, 0) = b). { destruct E2 as [E2|(k & F & Ek)]; [exact E2|]. apply (exact_found L c b k X Hb) in F. congruence. }
    assert (Sg : nsegs c' = L ++ [((a, b), n)]).
    { unfold nsegs. rewrite Ed, map_app. cbn [map]. f_equal.
      - rewrite Ev, nsegs_app; [exact (ex_segs _ _ X)|apply (ex_valid _ _ X)].
      - unfold nseg, seg. cbn [ev1 ev2 enormal]. rewrite N1, N2. reflexivity. }
    constructor.
    + exact V.
    + exact (insert_edge2_full pl lookup cap a b n c c' Hl Hc (ex_valid _ _ X) (ex_full _ _ X) E).
    + unfold unsplit. rewrite Ed. apply Forall_app. split; [apply (ex_fresh _ _ X)|repeat constructor].
    + exact Sg.
    + rewrite Ev. unfold news, new_of. destruct (find_vertex lookup c a) eqn:Fa; destruct (find_vertex lookup c b) eqn:Fb; cbn [app].
      * rewrite app_nil_r. apply (ex_nodup _ _ X).
      * apply (Permutation_NoDup (Permutation_app_comm [b] _)). cbn [app]. constructor; [apply (exact_new L); assumption|apply (ex_nodup _ _ X)].
      * apply (Permutation_NoDup (Permutation_app_comm [a] _)). cbn [app]. constructor; [apply (exact_new L); assumption|apply (ex_nodup _ _ X)].
      * apply (Permutation_NoDup (Permutation_app_comm [a; b] _)). cbn [app]. constructor; [intros [I|I]; [congruence|exact (exact_new L c a X Fa I)]|]. constructor; [apply (exact_new L); assumption|apply (ex_nodup _ _ X)].
    + intros v I. rewrite segs_nsegs, Sg, map_app. rewrite Ev in I. apply in_app_or in I. destruct I as [I|I].
      * destruct (ex_used _ _ X v I) as (e & Ie & Hv). exists e. split; [|exact Hv]. apply in_or_app. left. rewrite segs_nsegs, (ex_segs _ _ X) in Ie. exact Ie.
      * exists (a, b). split; [apply in_or_app; right; left; reflexivity|]. exact (news_in lookup c a b v I).
    + rewrite Ev. apply Forall_app. split; [apply (ex_from _ _ X)|]. apply Forall_forall. intros v I. destruct (news_in lookup c a b v I); subst; assumption.
    + rewrite Ev, !app_length. cbn [length]. pose proof (news_length lookup c a b). pose proof (ex_size _ _ X). lia.
Qed.

(** The edges of one orientation, in the direction from left to right. *)
Definition run2 (e : pt * pt * pt) : seg2 :=
  let '(p, q, _) := e in if rltb (at_ (d1 pl) p) (at_ (d1 pl) q) then (project pl p, project pl q) else (project pl q, project pl p).
Definition normal2 (e : pt * pt * pt) : point2 := project pl (snd e).
Definition wide (e : pt * pt * pt) : bool := rltb tol (Rabs (fst (fst (run2 e)) - fst (snd (run2 e)))).
Definition positive (e : pt * pt * pt) : bool := wide e && rltb zerotol (snd (normal2 e)).
Definition negative (e : pt * pt * pt) : bool := wide e && negb (rltb zerotol (snd (normal2 e))) && rltb (snd (normal2 e)) (- zerotol).
Definition given (choose : pt * pt * pt -> bool) (es : list (pt * pt * pt)) : list (seg2 * point2) := map (fun e => (run2 e, normal2 e)) (List.filter choose es).
Lemma run2_ends e : pts (project pl (fst (fst e))) -> pts (project pl (snd (fst e))) -> pts (fst (run2 e)) /\ pts (snd (run2 e)).
Proof. destruct e as [[p q] n]. cbn. destruct (rltb _ _); cbn; auto. Qed.
Lemma insert3_exact e s A B k : exact A (pos s) -> exact B (neg s) -> valid (ver s) -> (length A <= k)%nat -> (length B <= k)%nat -> (length (verts (ver s)) <= 2 * k)%nat -> (2 * k + 2 <= cap)%nat ->
  pts (fst (run2 e)) -> pts (snd (run2 e)) -> exists s', insert_edge3 pl lookup cap e s = Some s' /\
  exact (A ++ given positive [e]) (pos s') /\ exact (B ++ given negative [e]) (neg s') /\ valid (ver s') /\ (length (verts (ver s')) <= 2 * S k)%nat.
Proof.
  intros X Y V LA LB LV Cap P1 P2. destruct e as [[p q] n].
  assert (R : insert_edge3 pl lookup cap (p, q, n) s = let '(a, b) := run2 (p, q, n) in let n2 := normal2 (p, q, n) in
    let vertical := if rltb tol (Rabs (snd a - snd b)) then option_map (fun c => State (pos s) (neg s) c) (insert_edge2 pl lookup cap a b n2 (ver s)) else Some s in
    if rltb tol (Rabs (fst a - fst b)) then
      if rltb zerotol (snd n2) then option_map (fun c => State c (neg s) (ver s)) (insert_edge2 pl lookup cap a b n2 (pos s))
      else if rltb (snd n2) (- zerotol) then option_map (fun c => State (pos s) c (ver s)) (insert_edge2 pl lookup cap a b n2 (neg s))
      else vertical
    else vertical) by reflexivity. rewrite R. clear R. unfold given. cbn [List.filter]. unfold positive, negative, wide.
  set (e := (p, q, n)) in *. destruct (run2 e) as [a b] eqn:Er. cbn [fst snd] in P1, P2 |- *. set (n2 := normal2 e).
  assert (Vert : exists s', (if rltb tol (Rabs (snd a - snd b)) then option_map (fun c => State (pos s) (neg s) c) (insert_edge2 pl lookup cap a b n2 (ver s)) else Some s) = Some s' /\ pos s' = pos s /\ neg s' = neg s /\ valid (ver s') /\ (length (verts (ver s')) <= 2 * S k)%nat).
  { destruct (rltb tol (Rabs (snd a - snd b))); [|exists s; split; [reflexivity|]; split; [reflexivity|]; split; [reflexivity|]; split; [exact V|lia]].
    destruct (insert_edge2_ok pl lookup cap a b n2 (ver s) V) as (c' & E & R); [pose proof (news_length lookup (ver s) a b); lia|]. rewrite E. cbn [option_map]. eexists. split; [reflexivity|]. cbn [pos neg ver]. split; [reflexivity|]. split; [reflexivity|].
    destruct R as [[-> _]|(i & j & _ & Ev & _ & V' & _)]; [split; [exact V|lia]|]. split; [exact V'|]. rewrite Ev, app_length. pose proof (news_length lookup (ver s) a b). lia. }
  assert (Dif : rltb tol (Rabs (fst a - fst b)) = true -> a <> b). { intros T ->. apply rltb_true in T. rewrite Rminus_diag_eq, Rabs_R0 in T by reflexivity. pose proof (snap_pos pl). lra. }
  destruct (rltb tol (Rabs (fst a - fst b))) eqn:W; cbn [andb].
  - destruct (rltb zerotol (snd n2)) eqn:Zp; cbn [negb andb].
    + destruct (insert_exact A (pos s) a b n2 X P1 P2 (Dif eq_refl)) as (c' & E & X'); [lia|]. rewrite E. cbn [option_map]. eexists. split; [reflexivity|]. cbn [pos neg ver map]. rewrite Er. split; [exact X'|]. split; [rewrite app_nil_r; exact Y|]. split; [exact V|lia].
    + destruct (rltb (snd n2) (- zerotol)) eqn:Zn.
      * destruct (insert_exact B (neg s) a b n2 Y P1 P2 (Dif eq_refl)) as (c' & E & Y'); [lia|]. rewrite E. cbn [option_map]. eexists. split; [reflexivity|]. cbn [pos neg ver map]. rewrite Er. split; [rewrite app_nil_r; exact X|]. split; [exact Y'|]. split; [exact V|lia].
      * destruct Vert as (s' & E & E1 & E2 & V' & L'). exists s'. split; [exact E|]. rewrite E1, E2. cbn [map]. rewrite !app_nil_r. auto.
  - destruct Vert as (s' & E & E1 & E2 & V' & L'). exists s'. split; [exact E|]. rewrite E1, E2. cbn [map]. rewrite !app_nil_r. auto.
Qed.
Lemma given_app c l l' : given c (l ++ l') = given c l ++ given c l'.
Proof. unfold given. induction l as [|a l IH]; [reflexivity|]. cbn [app List.filter]. destruct (c a); cbn [map app]; [f_equal|]; exact IH. Qed.
Lemma given_length c l : (length (given c l) <= length l)%nat.
Proof. unfold given. rewrite map_length. apply filter_len. Qed.
Lemma collect_exact es : forall done s, exact (given positive done) (pos s) -> exact (given negative done) (neg s) -> valid (ver s) -> (length (verts (ver s)) <= 2 * length done)%nat ->
  (2 * length (done ++ es) <= cap)%nat -> (forall e, In e es -> pts (project pl (fst (fst e))) /\ pts (project pl (snd (fst e)))) ->
  exists s', collect pl lookup cap es s = Some s' /\ exact (given positive (done ++ es)) (pos s') /\ exact (given negative (done ++ es)) (neg s').
Proof.
  induction es as [|e es IH]; intros done s X Y V L Cap Hp.
  - rewrite app_nil_r. exists s. auto.
  - destruct (Hp e (or_introl eq_refl)) as [H1 H2]. destruct (run2_ends e H1 H2) as [P1 P2]. rewrite app_length in Cap. cbn [length] in Cap.
    destruct (insert3_exact e s _ _ (length done) X Y V (given_length _ _) (given_length _ _) L) as (s1 & E & X1 & Y1 & V1 & L1); [lia|exact P1|exact P2|].
    destruct (IH (done ++ [e]) s1) as (s' & E' & R).
    + rewrite given_app. exact X1.
    + rewrite given_app. exact Y1.
    + exact V1.
    + rewrite app_length. cbn [length]. lia.
    + rewrite !app_length. cbn [length]. lia.
    + intros e' I. apply Hp. right. exact I.
    + exists s'. rewrite <- !app_assoc in R. cbn [app] in R. split; [|exact R]. unfold collect in *. cbn [fold_left and_then]. rewrite E. exact E'.
Qed.
End Input.

(** *** The vertices of a contour in general position are the ends of its edges *)
Lemma general_vertices pl P N VP VN VP' VN' : general pl P N VP VN -> NoDup VP' -> NoDup VN' ->
  (forall e, In e P -> In (fst e) VP' /\ In (snd e) VP') -> (forall e, In e N -> In (fst e) VN' /\ In (snd e) VN') ->
  (forall v, In v VP' -> exists e, In e P /\ (v = fst e \/ v = snd e)) -> (forall v, In v VN' -> exists e, In e N /\ (v = fst e \/ v = snd e)) -> general pl P N VP' VN'.
Proof.
  intros G DP DN EP EN UP UN. assert (IP : forall v, In v VP <-> In v VP').
  { intros v. split; intros I; [destruct (g_usedP _ _ _ _ _ G v I) as (e & Ie & [-> | ->]); apply (EP e Ie)|destruct (UP v I) as (e & Ie & [-> | ->]); apply (g_endsP _ _ _ _ _ G e Ie)]. }
  assert (IN : forall v, In v VN <-> In v VN').
  { intros v. split; intros I; [destruct (g_usedN _ _ _ _ _ G v I) as (e & Ie & [-> | ->]); apply (EN e Ie)|destruct (UN v I) as (e & Ie & [-> | ->]); apply (g_endsN _ _ _ _ _ G e Ie)]. }
  assert (I : forall v, In v (VP' ++ VN') <-> In v (VP ++ VN)) by (intros v; rewrite !in_app_iff, IP, IN; tauto).
  destruct G as [G1 G2 G3 G4 G5 G6 G7 G8 G9 G10 G11 G12 G13 G14 G15 G16]. constructor; auto.
  - intros v w Iv Iw. apply G9; apply I; assumption.
  - intros e f v A B Iv. apply G11; auto. apply I. exact Iv.
  - intros e g x A B Nv. apply G12; auto. intros v Iv. apply Nv. apply I. exact Iv.
  - intros f g x A B Nv. apply G13; auto. intros v Iv. apply Nv. apply I. exact Iv.
  - intros f x A Nv. apply G14; auto. intros v Iv. apply Nv. apply I. exact Iv.
  - intros e f v A B Iv. apply G15; auto. apply I. exact Iv.
Qed.

Section Away.
Variable pl : plane.
Notation tol := (snap pl).
Variable lookup : list point2 -> point2 -> option nat.
Variable sort_points : list point2 -> list point2.
Variable sort_edges : list point2 -> list (edge2 * bool) -> list (edge2 * bool).
Variable inside : pt -> bool.
Hypothesis Hl : sound pl lookup.
Hypothesis Hc : complete pl lookup.
Hypothesis Hs : forall l, Permutation l (sort_points l).
Hypothesis Hsorted : forall l, nondecreasing (sort_points l).
Hypothesis He : forall vs l, Permutation l (sort_edges vs l).
Variable es : list (pt * pt * pt).
(** The ends of the given edges in the plane. *)
Definition end_point (v : point2) : Prop := exists e, In e es /\ (v = project pl (fst (fst e)) \/ v = project pl (snd (fst e))).
Hypothesis distinct : forall u v, end_point u -> end_point v -> u = v \/ psame tol u v = false.
Hypothesis away : forall v, end_point v -> 10 * tol <= Rabs (snd v - top2 pl).
Hypothesis width : left1 pl + tol < right1 pl.
Notation cornerl := (left1 pl, top2 pl).
Notation cornerr := (right1 pl, top2 pl).
Definition points (v : point2) : Prop := end_point v \/ v = cornerl \/ v = cornerr.
Lemma points_sep u v : points u -> points v -> u = v \/ psame tol u v = false.
Proof.
  pose proof (snap_pos pl) as TP. assert (X : forall u v, end_point u -> v = cornerl \/ v = cornerr -> psame tol u v = false /\ psame tol v u = false).
  { intros a b Ha Hb. specialize (away a Ha). assert (Eb : snd b = top2 pl) by (destruct Hb; subst; reflexivity). split.
    - destruct (psame tol a b) eqn:E; [|reflexivity]. apply psame_near in E. rewrite Eb in E. lra.
    - destruct (psame tol b a) eqn:E; [|reflexivity]. apply psame_near in E. rewrite Eb, (Rabs_minus_sym (top2 pl)) in E. lra. }
  assert (Y : psame tol cornerl cornerr = false /\ psame tol cornerr cornerl = false).
  { split; [destruct (psame tol cornerl cornerr) eqn:E|destruct (psame tol cornerr cornerl) eqn:E]; try reflexivity; apply psame_near in E; cbn [fst] in E; destruct E as [E _]; apply Rabs_def2 in E; lra. }
  intros [Hu|Hu] [Hv|Hv]; [apply distinct; assumption|right; apply (X u v); assumption|right; apply (X v u); assumption|].
  destruct Hu as [-> | ->], Hv as [-> | ->]; [left; reflexivity|right; apply Y|right; apply Y|left; reflexivity].
Qed.
(** The point that decides whether the region above the contour is inside, for the height of the highest end. *)
Definition probe (h : R) : pt := lift pl (position pl) (left1 pl + / 2 * (right1 pl - left1 pl), / 2 * (top2 pl + h)).
Definition is_highest (h : R) : Prop :=
  (h = bottom2 pl \/ exists e, In e (map fst (given pl (positive pl) es ++ given pl (negative pl) es)) /\ (h = snd (fst e) \/ h = snd (snd e))) /\
  bottom2 pl <= h /\ forall e, In e (map fst (given pl (positive pl) es ++ given pl (negative pl) es)) -> snd (fst e) <= h /\ snd (snd e) <= h.
Lemma fold_max l : forall a, let m := fold_left (fun acc p => Rmax acc (snd p)) l a in a <= m /\ (forall p : point2, In p l -> snd p <= m) /\ (m = a \/ exists p, In p l /\ m = snd p).
Proof.
  induction l as [|p l IH]; intros a m; [unfold m; cbn; split; [lra|split; [intros p []|left; reflexivity]]|]. unfold m. cbn [fold_left]. destruct (IH (Rmax a (snd p))) as (H1 & H2 & H3).
  pose proof (Rmax_l a (snd p)). pose proof (Rmax_r a (snd p)). split; [lra|]. split; [intros q [<-|I]; [lra|apply H2; exact I]|].
  destruct H3 as [H3|(q & I & H3)]; [|right; exists q; split; [right; exact I|exact H3]]. unfold Rmax in H3 |- *. destruct (Rle_dec a (snd p)); [right; exists p; split; [left; reflexivity|exact H3]|left; exact H3].
Qed.
Lemma highest_unique h h' : is_highest h -> is_highest h' -> h = h'.
Proof.
  assert (X : forall h h', is_highest h -> is_highest h' -> h <= h').
  { intros a b (A1 & A2 & A3) (B1 & B2 & B3). destruct A1 as [->|(e & I & [-> | ->])]; [exact B2| |]; apply (B3 e I). }
  intros H H'. apply Rle_antisym; apply X; assumption.
Qed.
Lemma not_found L c v : exact points L c -> In v [cornerl; cornerr] -> (forall u, In u (verts c) -> end_point u) -> find_vertex lookup c v = None.
Proof.
  intros X Iv Hu. destruct (find_vertex lookup c v) as [i|] eqn:F; [exfalso|reflexivity].
  assert (Pv : points v) by (right; destruct Iv as [<-|[<-|[]]]; auto). apply (exact_found pl lookup Hl points points_sep L c v i X Pv) in F. apply nth_error_In in F. apply Hu in F. apply away in F.
  pose proof (snap_pos pl). destruct Iv as [<-|[<-|[]]]; cbn [snd] in F; rewrite Rminus_diag_eq, Rabs_R0 in F by reflexivity; lra.
Qed.
(** The edges of the closed contour. *)
Definition top_edge : seg2 * point2 := ((cornerl, cornerr), (0, 1)).
Definition closed (h : R) : list (seg2 * point2) := given pl (positive pl) es ++ (if inside (probe h) then [top_edge] else []).
Lemma exact_ends L c e : exact points L c -> In e (map fst L) -> In (fst e) (verts c) /\ In (snd e) (verts c).
Proof.
  intros X I. rewrite <- (ex_segs _ _ _ X) in I. rewrite <- segs_nsegs in I. unfold segs in I. apply in_map_iff in I. destruct I as (e0 & <- & I0). apply seg_in; [apply (ex_valid _ _ _ X)|exact I0].
Qed.
Lemma exact_used L c v : exact points L c -> In v (verts c) -> exists e, In e (map fst L) /\ (v = fst e \/ v = snd e).
Proof. intros X I. destruct (ex_used _ _ _ X v I) as (e & Ie & H). exists e. split; [|exact H]. rewrite segs_nsegs, (ex_segs _ _ _ X) in Ie. exact Ie. Qed.
Lemma none_on_top c : valid c -> (forall u, In u (verts c) -> end_point u) -> intersecting pl sort_edges c = Some [].
Proof.
  intros V H. rewrite intersecting_eq by exact V. f_equal. replace (concat (map (top_of pl c) (edges c))) with (@nil (edge2 * bool)); [apply Permutation_nil, He|].
  assert (T : forall u, In u (verts c) -> on_top pl u = false) by (intros u I; apply rltb_false; apply away, H, I).
  assert (X : forall l, (forall e, In e l -> In e (edges c)) -> [] = concat (map (top_of pl c) l)); [|apply X; auto].
  induction l as [|e l IH]; intros I; [reflexivity|]. cbn [map concat]. rewrite <- IH by (intros e' I'; apply I; right; exact I'). destruct (seg_in c e V (I e (or_introl eq_refl))) as [S1 S2]. unfold top_of. rewrite (T _ S1), (T _ S2). reflexivity.
Qed.
Lemma closed_contour : exists s0 s h, collect pl lookup (reserved es) es empty_state = Some s0 /\ close_top pl lookup sort_edges inside (reserved es) s0 = Some s /\ is_highest h /\
  exact points (closed h) (pos s) /\ exact points (given pl (negative pl) es) (neg s).
Proof.
  set (cap := reserved es). assert (Rn : cap = Nat.max (3 * length es) 10) by reflexivity. pose proof (snap_pos pl) as TP.
  assert (EP : forall e, In e es -> end_point (project pl (fst (fst e))) /\ end_point (project pl (snd (fst e)))) by (intros e I; split; exists e; auto).
  destruct (collect_exact pl lookup Hl Hc cap points points_sep es [] empty_state) as (s0 & C & X & Y).
  - apply exact_empty.
  - apply exact_empty.
  - split; constructor.
  - apply le_n.
  - cbn [app]. lia.
  - intros e I. destruct (EP e I). split; left; assumption.
  - cbn [app] in X, Y. destruct (collect_ok pl lookup cap end_point es 0 empty_state (collect_start pl lookup end_point)) as (s0' & C' & K).
    { lia. }
    { intros p q n I. apply (EP (p, q, n) I). }
    rewrite C in C'. injection C' as <-. destruct K as [(Vp & Vn & Vv) _ _ (Fp & Fn & Fv) Hfull _]. destruct (Hfull Hl Hc) as (_ & _ & FLv). unfold from_inputs in *. rewrite Forall_forall in Fp, Fn, Fv.
    assert (NF : forall v, In v [cornerl; cornerr] -> exists_somewhere lookup s0 v = false).
    { intros v Iv. unfold exists_somewhere. rewrite (not_found _ _ v X Iv Fp), (not_found _ _ v Y Iv Fn). cbn [orb].
      destruct (find_vertex lookup (ver s0) v) as [i|] eqn:F; [exfalso|reflexivity]. destruct (full_found pl lookup (ver s0) v i Hl FLv F) as (q & E & S). apply psame_near in S. apply nth_error_In in E. apply Fv, away in E.
      destruct Iv as [<-|[<-|[]]]; cbn [snd] in S; lra. }
    assert (T : top_vertices pl lookup sort_edges s0 = Some ([(left1 pl, true); (right1 pl, false)], true)).
    { unfold top_vertices. rewrite (none_on_top _ Vp Fp), (none_on_top _ Vn Fn), (none_on_top _ Vv Fv). cbn [and_then]. rewrite (NF cornerl), (NF cornerr) by (cbn; auto). cbn [negb remove_vertical_duplicates remove_duplicates unique List.filter length Nat.add merge_tops and_then rev app andb].
      assert (W : rltb tol (Rabs (left1 pl - right1 pl)) = true). { apply rltb_true. rewrite Rabs_minus_sym, Rabs_pos_eq by lra. lra. }
      cbn [fst]. rewrite W. reflexivity. }
    set (h := highest pl s0). assert (Hh : is_highest h).
    { destruct (fold_max (verts (neg s0) ++ verts (pos s0)) (bottom2 pl)) as (H1 & H2 & H3). fold (highest pl s0) in H1, H2, H3. fold h in H1, H2, H3. split; [|split; [exact H1|]].
      - destruct H3 as [H3|(v & I & H3)]; [left; exact H3|right]. rewrite map_app. apply in_app_or in I. destruct I as [I|I].
        + destruct (exact_used _ _ v Y I) as (e & Ie & Hv). exists e. split; [apply in_or_app; right; exact Ie|]. rewrite H3. destruct Hv as [-> | ->]; auto.
        + destruct (exact_used _ _ v X I) as (e & Ie & Hv). exists e. split; [apply in_or_app; left; exact Ie|]. rewrite H3. destruct Hv as [-> | ->]; auto.
      - intros e I. rewrite map_app in I. apply in_app_or in I. destruct I as [I|I]; [destruct (exact_ends _ _ e X I)|destruct (exact_ends _ _ e Y I)]; split; apply H2; apply in_or_app; auto. }
    assert (CT : close_top pl lookup sort_edges inside cap s0 = if inside (probe h) then insert_top pl lookup cap (left1 pl) (right1 pl) s0 else Some s0).
    { unfold close_top. rewrite T. reflexivity. }
    unfold closed. destruct (inside (probe h)) eqn:Ei; rewrite ?Ei in CT.
    + destruct (insert_exact pl lookup Hl Hc cap points points_sep _ (pos s0) cornerl cornerr (0, 1) X) as (c' & E & X').
      * right; left; reflexivity.
      * right; right; reflexivity.
      * intros Q. injection Q as Q. lra.
      * pose proof (given_length pl (positive pl) es). lia.
      * exists s0, (State c' (neg s0) (ver s0)), h. split; [exact C|]. split; [rewrite CT; unfold insert_top; rewrite E; reflexivity|]. split; [exact Hh|]. rewrite Ei. split; [exact X'|exact Y].
    + exists s0, s0, h. split; [exact C|]. split; [exact CT|]. split; [exact Hh|]. rewrite Ei, app_nil_r. auto.
Qed.

(** The triangles of the face. *)
Hypothesis made : exists index upper lo hi switch, make_plane index upper lo hi switch = Some pl.
Hypothesis box : bottom2 pl <= top2 pl.
Hypothesis inbox : forall v, end_point v -> bottom2 pl <= snd v.
Hypothesis steep : forall e, In e (given pl (positive pl) es) -> 2 * zerotol < tol * snd (snd e).
Theorem contour_area h VP VN : is_highest h -> general pl (map fst (closed h)) (map fst (given pl (negative pl) es)) VP VN -> exists m ts,
  face_mesh pl lookup sort_points sort_edges inside es = Some m /\ cm_ok m /\ visit_n (cm_mesh m) = Some (map (fun t => (t, face_normal pl)) ts) /\ Forall (outward pl) ts /\
  sum tri_area ts = sum_under (bottom2 pl) (map fst (closed h)) - sum_under (bottom2 pl) (map fst (given pl (negative pl) es)).
Proof.
  intros Hh G. destruct closed_contour as (s0 & s & h' & C & CT & Hh' & X & Y). assert (h' = h) as -> by (apply highest_unique; assumption). pose proof (snap_pos pl) as TP.
  destruct (run_ok pl lookup sort_points sort_edges inside Hs He (reserved es) es (fun _ => True) (fun _ => True)) as (s0' & s' & s1 & m & C' & CT' & CC & T & OK & _ & _ & Vp & Vn & Up & Un & _ & V); auto.
  { right. split; [apply le_n|]. split; [exact Hl|]. split; [exact Hc|]. intros p q n I. assert (E : forall v, end_point v -> clear_of_top pl v) by (intros v Hv _; apply away; exact Hv). split; apply E; exists (p, q, n); auto. }
  rewrite C in C'. injection C' as <-. rewrite CT in CT'. injection CT' as <-.
  assert (SP : segs (pos s) = map fst (closed h)) by (rewrite segs_nsegs, (ex_segs _ _ _ X); reflexivity). assert (SN : segs (neg s) = map fst (given pl (negative pl) es)) by (rewrite segs_nsegs, (ex_segs _ _ _ Y); reflexivity).
  assert (G' : general pl (segs (pos s)) (segs (neg s)) (verts (pos s)) (verts (neg s))).
  { rewrite SP, SN. apply (general_vertices pl _ _ VP VN); [exact G|apply (ex_nodup _ _ _ X)|apply (ex_nodup _ _ _ Y)| | | |].
    - intros e I. apply (exact_ends _ _ e X I).
    - intros e I. apply (exact_ends _ _ e Y I).
    - intros v I. apply (exact_used _ _ v X I).
    - intros v I. apply (exact_used _ _ v Y I). }
  destruct (face_area pl sort_points Hs Hsorted inside s G' Up Un) as [O A].
  - intros e0 I0. assert (I : In (nseg (verts (pos s)) e0) (closed h)) by (rewrite <- (ex_segs _ _ _ X); apply in_map; exact I0). unfold closed in I. apply in_app_or in I. destruct I as [I|I]; [exact (steep _ I)|].
    destruct (inside (probe h)); [|destruct I]. destruct I as [I|[]]. unfold top_edge, nseg in I. injection I as _ _ <-. cbn [snd]. pose proof (g_tol _ _ _ _ _ G). lra.
  - exact made.
  - intros v I. pose proof (ex_from _ _ _ X) as F. rewrite Forall_forall in F. destruct (F v I) as [E|[-> | ->]]; [apply inbox; exact E|exact box|exact box].
  - exists m. eexists. split; [|split; [exact OK|split; [exact V|split; [exact O|]]]].
    + unfold face_mesh. rewrite C. cbn [and_then]. rewrite CC. exact T.
    + rewrite A, SP, SN. reflexivity.
Qed.
End Away.
