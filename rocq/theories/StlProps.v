(** Properties C33, C34 and C58 of the STL files. *)
From Coq Require Import String Ascii Bool NArith ZArith QArith Qabs Arith List Lia Lqa Nnat.
From Verif Require Import KeysModel JsonModel BufferModel BufferProofs PointOrderModel PointOrderProofs MeshModel MeshProofs
  StlModel StlProofs StlAsciiProofs.
Import ListNotations.
Local Open Scope nat_scope.

(** *** C33 *)
(** All vertices of all triangles that are in the file. *)
Definition points_of {D} (ts : list (tri (vec D))) (v : vec D) : Prop := exists t, In t ts /\ corner_of D t v.

(** Writing and reading back, with the detection of the encoding: the triangles are those of the mesh in the same
    order, with coordinates in single precision; equal vertices are merged, no others; the normals are recomputed.
    The writer may run on any host, with any buffer size. *)
Lemma binary_round_trip D to_float of_float show6 scan less normal disk host size (m : mesh (vec D)) l :
  (size < 2 ^ 63)%N -> (forall a b, disk a b = None) -> (forall d, (to_float d < 2 ^ 32)%N) ->
  visit_n m = Some l -> (N.of_nat (length l) < 2 ^ 32)%N ->
  let ts := map (fun q => round_tri D to_float of_float (fst q)) l in
  separated D less (points_of ts) ->
  exists b m', write_stl D to_float show6 disk host size m enc_binary = Saved b /\
    read_stl D of_float scan less normal little b = Loaded m' /\ merged D normal ts m'.
Proof.
  intros S K R V L ts Se. assert (N : num_triangles m = length l) by (apply visit_seq in V; symmetry; apply V).
  exists (binary_bytes D to_float (length l) l).
  destruct (facets_merged D less normal (points_of ts) ts Se) as [m' [E M]]; [intros t v I C; exists t; auto|].
  exists m'. split; [|split; [|exact M]].
  - unfold write_stl. rewrite (write_binary_ok D to_float disk host size m l S K V), N. reflexivity.
  - unfold read_stl. rewrite encoding_binary. rewrite <- (app_nil_r (binary_bytes D to_float (length l) l)), read_binary_ok by assumption. exact E.
Qed.
Theorem C33_binary_round_trip : forall D to_float of_float show6 scan less normal disk host size (m : mesh (vec D)) l,
  (size < 2 ^ 63)%N -> (forall a b, disk a b = None) -> (forall d, (to_float d < 2 ^ 32)%N) ->
  visit_n m = Some l -> (N.of_nat (length l) < 2 ^ 32)%N ->
  let ts := map (fun q => round_tri D to_float of_float (fst q)) l in
  separated D less (points_of ts) ->
  exists b m', write_stl D to_float show6 disk host size m enc_binary = Saved b /\
    read_stl D of_float scan less normal little b = Loaded m' /\ merged D normal ts m'.
Proof. exact binary_round_trip. Qed.
Print Assumptions C33_binary_round_trip.

(** The same for the ascii encoding, with the numbers that result from writing and reading the decimal text. *)
Lemma ascii_round_trip D to_float of_float show6 scan less normal text_float disk host host' size (m : mesh (vec D)) l :
  (forall a b, disk a b = None) ->
  (forall d c, In c (show6 d) -> In c numeric) ->
  (forall d rest, rest = [] \/ (exists r, rest = " "%char :: r) -> scan (" "%char :: show6 d ++ rest) = Number (text_float d) rest) ->
  visit_n m = Some l ->
  let ts := map (fun q => text_tri D of_float text_float (fst q)) l in
  separated D less (points_of ts) ->
  exists b m', write_stl D to_float show6 disk host size m enc_ascii = Saved b /\
    read_stl D of_float scan less normal host' b = Loaded m' /\ merged D normal ts m'.
Proof.
  intros K Sn Ss V ts Se. exists (ascii_text D show6 l).
  destruct (facets_merged D less normal (points_of ts) ts Se) as [m' [E M]]; [intros t v I C; exists t; auto|].
  exists m'. split; [|split; [|exact M]].
  - unfold write_stl. apply write_ascii_ok; assumption.
  - unfold read_stl. rewrite encoding_ascii. rewrite (read_ascii_ok D of_float show6 scan less normal text_float) by assumption. exact E.
Qed.
Theorem C33_ascii_round_trip : forall D to_float of_float show6 scan less normal text_float disk host host' size (m : mesh (vec D)) l,
  (forall a b, disk a b = None) ->
  (forall d c, In c (show6 d) -> In c numeric) ->
  (forall d rest, rest = [] \/ (exists r, rest = " "%char :: r) -> scan (" "%char :: show6 d ++ rest) = Number (text_float d) rest) ->
  visit_n m = Some l ->
  let ts := map (fun q => text_tri D of_float text_float (fst q)) l in
  separated D less (points_of ts) ->
  exists b m', write_stl D to_float show6 disk host size m enc_ascii = Saved b /\
    read_stl D of_float scan less normal host' b = Loaded m' /\ merged D normal ts m'.
Proof. exact ascii_round_trip. Qed.
Print Assumptions C33_ascii_round_trip.

(** The ordering of the library on rational coordinates; see C35. *)
Definition q_less (a b : vec Q) : bool := less3 snaptol (QPt (vx a) (vy a) (vz a)) (QPt (vx b) (vy b) (vz b)).
(** Without the assumption that the points are separated: as long as no two points differ by exactly the tolerance in x
    or y (then the ordering is blind for the other coordinates, see C35_refuted), every vertex moves by at most the
    tolerance 1e-12 in every coordinate. *)
Definition close (a b : Q) : Prop := (Qabs (a - b) <= snaptol)%Q.
Definition close_vec (a b : vec Q) : Prop := close (vx a) (vx b) /\ close (vy a) (vy b) /\ close (vz a) (vz b).
Definition close_tri (s t : tri (vec Q)) : Prop := close_vec (P1 s) (P1 t) /\ close_vec (P2 s) (P2 t) /\ close_vec (P3 s) (P3 t).
Definition not_exactly (a b : Q) : Prop := ~ (Qabs (a - b) == snaptol)%Q.
Definition not_at_tolerance (S : vec Q -> Prop) : Prop := forall a b, S a -> S b -> not_exactly (vx a) (vx b) /\ not_exactly (vy a) (vy b).
Lemma near_close v k : not_exactly (vx k) (vx v) -> not_exactly (vy k) (vy v) -> near Q q_less v k -> close_vec v k.
Proof.
  assert (T : (0 < snaptol)%Q) by reflexivity. intros Nx Ny [-> | H].
  - assert (Z : forall x, close x x). { intros x. unfold close. setoid_replace (x - x)%Q with 0%Q by ring. apply Qlt_le_weak, T. }
    repeat split; apply Z.
  - unfold equiv, q_less, less3 in H. cbn [qx qy qz] in H. rewrite (near_sym _ (vx v)), (near_sym _ (vy v)) in H.
    apply andb_true_iff in H as [H1 H2]. apply negb_true_iff in H1, H2.
    assert (N : forall x, qltb x (- snaptol) = false -> (- snaptol <= x)%Q).
    { intros x E. apply Qnot_lt_le. intros L. apply qltb_iff in L. congruence. }
    assert (C : forall x y, qltb (y - x) (- snaptol) = false -> qltb (x - y) (- snaptol) = false -> close x y).
    { intros x y A B. apply N in A, B. unfold close. apply Qabs_Qle_condition. lra. }
    assert (C' : forall x y, qltb (Qabs (y - x)) snaptol = true -> close x y).
    { intros x y A. apply qltb_iff in A. unfold close. rewrite abs_sym. lra. }
    assert (Z : forall x y, qltb (Qabs (y - x)) snaptol = false -> close x y -> (Qabs (y - x) == snaptol)%Q).
    { intros x y A B. assert (L : (snaptol <= Qabs (y - x))%Q) by (apply Qnot_lt_le; intros L; apply qltb_iff in L; congruence).
      unfold close in B. rewrite abs_sym in B. lra. }
    destruct (qltb (Qabs (vx k - vx v)) snaptol) eqn:X.
    + destruct (qltb (Qabs (vy k - vy v)) snaptol) eqn:Y; [split; [auto | split; auto]|].
      exfalso. apply Ny, Z; auto.
    + exfalso. apply Nx, Z; auto.
Qed.

(** Where the vertices of a mesh that is read come from. *)
Lemma any_mesh to_float of_float show6 scan normal disk host size (m : mesh (vec Q)) l :
  (size < 2 ^ 63)%N -> (forall a b, disk a b = None) -> (forall d, (to_float d < 2 ^ 32)%N) ->
  visit_n m = Some l -> (N.of_nat (length l) < 2 ^ 32)%N ->
  let ts := map (fun q => round_tri Q to_float of_float (fst q)) l in
  not_at_tolerance (points_of ts) ->
  exists b m' l', write_stl Q to_float show6 disk host size m enc_binary = Saved b /\
    read_stl Q of_float scan q_less normal little b = Loaded m' /\ well_formed m' /\ visit m' = Some l' /\ Forall2 close_tri ts l'.
Proof.
  intros S K R V L ts NT. assert (N : num_triangles m = length l) by (apply visit_seq in V; symmetry; apply V).
  exists (binary_bytes Q to_float (length l) l).
  destruct (facets_near Q q_less normal ts) as [m' [l' (E & W & V' & F)]].
  exists m', (map fst l'). split; [|split; [|split; [exact W | split]]].
  - unfold write_stl. rewrite (write_binary_ok Q to_float disk host size m l S K V), N. reflexivity.
  - unfold read_stl. rewrite encoding_binary. rewrite <- (app_nil_r (binary_bytes Q to_float (length l) l)), read_binary_ok by assumption. exact E.
  - apply visit_fst, V'.
  - (* the vertices of the mesh are points of the file *)
    assert (Vs : forall v, In v (m_vertices m') -> points_of ts v).
    { clear - E. assert (A : forall us r, consistent Q r -> (forall v, In v (m_vertices (r_mesh Q r)) -> points_of ts v) -> incl us ts ->
        forall v, In v (m_vertices (r_mesh Q (fold_left (add_facet Q q_less normal) us r))) -> points_of ts v).
      { induction us as [|t us IH]; intros r C P I v; [apply P|]. cbn [fold_left]. apply IH.
        - assert (H : forall r0 w r1 i k, consistent Q r0 -> add_point Q q_less r0 w = (r1, (i, k)) -> consistent Q r1).
          { intros r0 w r1 i k C0 E0. apply (add_point_ok Q q_less _ _ _ _ _ C0 E0). }
          unfold add_facet. destruct (add_point Q q_less r (P1 t)) as [r1 [i a]] eqn:E1. apply H in E1; [|exact C].
          destruct (add_point Q q_less r1 (P2 t)) as [r2 [j b]] eqn:E2. apply H in E2; [|exact E1].
          destruct (add_point Q q_less r2 (P3 t)) as [r3 [k c]] eqn:E3. apply H in E3; [|exact E2].
          destruct r3 as [[m0 im] index]. exact E3.
        - assert (H : forall r0 w r1 i k, consistent Q r0 -> (forall v, In v (m_vertices (r_mesh Q r0)) -> points_of ts v) -> points_of ts w ->
            add_point Q q_less r0 w = (r1, (i, k)) -> consistent Q r1 /\ forall v, In v (m_vertices (r_mesh Q r1)) -> points_of ts v).
          { intros r0 w r1 i k C0 P0 Pw E0. destruct (add_point_ok Q q_less _ _ _ _ _ C0 E0) as (C1 & _ & _ & [(-> & _) | (_ & Q0 & _)]); [auto|].
            split; [exact C1|]. intros u. rewrite Q0, in_app_iff. cbn. intros [U|[<-|[]]]; auto. }
          assert (It : In t ts) by (apply I; left; reflexivity).
          unfold add_facet. destruct (add_point Q q_less r (P1 t)) as [r1 [i a]] eqn:E1. apply H in E1 as [C1 P1']; [|exact C|exact P|exists t; cbv; auto].
          destruct (add_point Q q_less r1 (P2 t)) as [r2 [j b]] eqn:E2. apply H in E2 as [C2 P2']; [|exact C1|exact P1'|exists t; cbv; auto].
          destruct (add_point Q q_less r2 (P3 t)) as [r3 [k c]] eqn:E3. apply H in E3 as [C3 P3']; [|exact C2|exact P2'|exists t; cbv; auto].
          destruct r3 as [[m0 im] index]. exact P3'.
        - intros u U. apply I. right. exact U. }
      specialize (A ts (new_reader Q) (new_consistent Q) ltac:(intros v []) (incl_refl _)).
      destruct (fold_left (add_facet Q q_less normal) ts (new_reader Q)) as [[m0 im] index]. cbn [r_mesh fst] in A.
      unfold checked in E. destruct (check m0); [|discriminate]. injection E as <-. exact A. }
    assert (Cs : forall q, In q l' -> forall v, corner_of Q (fst q) v -> In v (m_vertices m')).
    { intros q I v C. apply In_nth_error in I as [i I]. apply visit_seq in V' as [Ll Fl].
      assert (Il : i < num_triangles m'). { rewrite <- Ll. apply nth_error_Some. congruence. }
      rewrite (Fl i Il) in I. unfold triangle_n, triangle in I. destruct (nth_error (m_triangles m') i) as [[[a b] c]|]; [|discriminate].
      unfold corners in I. destruct (nth_error (m_vertices m') a) eqn:Ea; [|discriminate]. destruct (nth_error (m_vertices m') b) eqn:Eb; [|discriminate].
      destruct (nth_error (m_vertices m') c) eqn:Ec; [|discriminate]. destruct (nth_error (m_normals m') i); [|discriminate].
      injection I as <-. destruct C as [-> | [-> | ->]]; cbn [P1 P2 P3 fst]; eapply nth_error_In; eassumption. }
    assert (Ts : forall t v, In t ts -> corner_of Q t v -> points_of ts v) by (intros t v I C; exists t; auto).
    clear E V' W. clearbody ts. revert NT Vs Cs Ts. generalize (points_of ts) as P. intros P NT Vs Cs Ts.
    induction F as [|t q us qs H F IH]; cbn [map]; constructor.
    + destruct H as (A & B & C & _). assert (Cq := Cs q (or_introl eq_refl)). assert (Tq := Ts t).
      assert (G : forall v k, near Q q_less v k -> P v -> P k -> close_vec v k).
      { intros v k Ne Pv Pk. destruct (NT k v Pk Pv) as [X Y]. apply near_close; assumption. }
      assert (Pt : forall v, corner_of Q t v -> P v) by (intros v H; apply Tq; [left; reflexivity | exact H]).
      assert (Pq : forall v, corner_of Q (fst q) v -> P v) by (intros v H; apply Vs, Cq, H).
      split; [|split]; (apply G; [assumption | apply Pt; unfold corner_of; auto | apply Pq; unfold corner_of; auto]).
    + apply IH; [intros q' I | intros t' v I]; [apply Cs | apply Ts]; right; exact I.
Qed.

Theorem C33_any_mesh : forall to_float of_float show6 scan normal disk host size (m : mesh (vec Q)) l,
  (size < 2 ^ 63)%N -> (forall a b, disk a b = None) -> (forall d, (to_float d < 2 ^ 32)%N) ->
  visit_n m = Some l -> (N.of_nat (length l) < 2 ^ 32)%N ->
  let ts := map (fun q => round_tri Q to_float of_float (fst q)) l in
  not_at_tolerance (points_of ts) ->
  exists b m' l', write_stl Q to_float show6 disk host size m enc_binary = Saved b /\
    read_stl Q of_float scan q_less normal little b = Loaded m' /\ well_formed m' /\ visit m' = Some l' /\ Forall2 close_tri ts l'.
Proof. exact any_mesh. Qed.
Print Assumptions C33_any_mesh.

(** With the ordering of the library and coordinates that are equal or further apart than the tolerance (as reduced
    fractions, so that equal numbers have equal representations) the points are separated. *)
Definition as_qpt (v : vec Q) : qpt := QPt (vx v) (vy v) (vz v).
Definition reduced (v : vec Q) : Prop := Qred (vx v) = vx v /\ Qred (vy v) = vy v /\ Qred (vz v) = vz v.
Lemma library_order (S : vec Q -> Prop) : (forall v, S v -> reduced v) ->
  apart3 snaptol (fun p => exists v, S v /\ p = as_qpt v) -> separated Q q_less S.
Proof.
  intros R A a b Sa Sb. destruct (less3_ok snaptol _ eq_refl A) as [_ [_ H]].
  specialize (H (as_qpt a) (as_qpt b) (ex_intro _ a (conj Sa eq_refl)) (ex_intro _ b (conj Sb eq_refl))).
  unfold equiv. rewrite andb_true_iff, !negb_true_iff. unfold q_less. fold (as_qpt a) (as_qpt b). rewrite H.
  split; [|intros ->; repeat split; reflexivity].
  intros (X & Y & Z). cbn [as_qpt qx qy qz] in *. destruct (R a Sa) as (X1 & Y1 & Z1), (R b Sb) as (X2 & Y2 & Z2).
  apply Qred_complete in X, Y, Z. destruct a as [a1 a2 a3], b as [b1 b2 b3]. cbn [vx vy vz] in *. congruence.
Qed.
Theorem C33_library_order : forall S : vec Q -> Prop, (forall v, S v -> reduced v) ->
  apart3 snaptol (fun p => exists v, S v /\ p = as_qpt v) -> separated Q q_less S.
Proof. exact library_order. Qed.
Print Assumptions C33_library_order.

(** A mesh whose coordinates are single precision numbers comes back with the same triangles. *)
Lemma exact_round_trip D to_float of_float show6 scan less normal disk host size (m : mesh (vec D)) l :
  (size < 2 ^ 63)%N -> (forall a b, disk a b = None) -> (forall d, (to_float d < 2 ^ 32)%N) ->
  visit m = Some l -> well_formed m -> (N.of_nat (length l) < 2 ^ 32)%N ->
  (forall t, In t l -> round_tri D to_float of_float t = t) -> separated D less (points_of l) ->
  exists b m', write_stl D to_float show6 disk host size m enc_binary = Saved b /\
    read_stl D of_float scan less normal little b = Loaded m' /\ visit m' = Some l.
Proof.
  intros S K R V W L F Se. destruct (visit_n_wf m W) as [ln Vn]. assert (E := visit_fst m ln Vn). rewrite V in E. injection E as ->.
  assert (Em : map (fun q => round_tri D to_float of_float (fst q)) ln = map fst ln).
  { rewrite <- map_map. rewrite <- map_id. apply map_ext_in. exact F. }
  destruct (binary_round_trip D to_float of_float show6 scan less normal disk host size m ln S K R Vn) as [b [m' (A & B & C)]];
    [rewrite map_length in L; exact L | rewrite Em; exact Se |].
  exists b, m'. split; [exact A|]. split; [exact B|]. destruct C as (_ & C & _). rewrite (visit_fst _ _ C), map_map, Em. cbn [fst].
  rewrite map_id. reflexivity.
Qed.
Theorem C33_exact_round_trip : forall D to_float of_float show6 scan less normal disk host size (m : mesh (vec D)) l,
  (size < 2 ^ 63)%N -> (forall a b, disk a b = None) -> (forall d, (to_float d < 2 ^ 32)%N) ->
  visit m = Some l -> well_formed m -> (N.of_nat (length l) < 2 ^ 32)%N ->
  (forall t, In t l -> round_tri D to_float of_float t = t) -> separated D less (points_of l) ->
  exists b m', write_stl D to_float show6 disk host size m enc_binary = Saved b /\
    read_stl D of_float scan less normal little b = Loaded m' /\ visit m' = Some l.
Proof. exact exact_round_trip. Qed.
Print Assumptions C33_exact_round_trip.

(** An instance: numbers are multiples of 1/4 from 0 to 2^30, a float stores four times the number; the mesh consists
    of two triangles with a common edge, with separate vertices. *)
Definition ex_to_float (q : Q) : N := Z.to_N (Z.modulo (Qnum q * 4 / Zpos (Qden q))%Z (2 ^ 32)).
Definition ex_of_float (n : N) : Q := Qred (Z.of_N n # 4).
Definition ex_mesh : mesh (vec Q) := Mesh
  [Vec 0 0 0; Vec 1 0 (1 # 4); Vec 0 (3 # 2) 0; Vec 0 (3 # 2) 0; Vec 1 0 (1 # 4); Vec 5 5 5]%Q
  [(0, 1, 2); (3, 4, 5)] [Vec 0 0 1; Vec 0 0 1]%Q.
Definition ex_points (v : vec Q) : Prop := In v [Vec 0 0 0; Vec 1 0 (1 # 4); Vec 0 (3 # 2) 0; Vec 5 5 5]%Q.
Definition ex_tris : list (tri (vec Q)) :=
  [Tri (Vec 0 0 0) (Vec 1 0 (1 # 4)) (Vec 0 (3 # 2) 0); Tri (Vec 0 (3 # 2) 0) (Vec 1 0 (1 # 4)) (Vec 5 5 5)]%Q.
Lemma ex_points_of v : points_of ex_tris v -> ex_points v.
Proof. intros [t [[<-|[<-|[]]] [-> | [-> | ->]]]]; cbn; tauto. Qed.
Lemma ex_separated : separated Q q_less (points_of ex_tris).
Proof.
  intros a b A B. apply ex_points_of in A, B. revert a b A B.
  assert (R : separated Q q_less ex_points); [|exact R]. apply library_order.
  - intros v I. repeat destruct I as [<-|I]; [..|destruct I]; repeat split.
  - intros p p' [v [I ->]] [v' [I' ->]].
    repeat destruct I as [<-|I]; [..|destruct I]; repeat destruct I' as [<-|I']; try destruct I'; cbn [as_qpt qx qy qz vx vy vz];
      (split; [|split]); first [left; reflexivity | right; reflexivity].
Qed.
Example C33_example : visit ex_mesh = Some ex_tris /\ well_formed ex_mesh /\
  (forall d, (ex_to_float d < 2 ^ 32)%N) /\ (forall t, In t ex_tris -> round_tri Q ex_to_float ex_of_float t = t) /\
  separated Q q_less (points_of ex_tris).
Proof.
  split; [reflexivity|]. split; [apply check_iff; reflexivity|]. split; [|split; [|exact ex_separated]].
  - intros d. unfold ex_to_float. assert (H := Z.mod_pos_bound (Qnum d * 4 / Zpos (Qden d)) (2 ^ 32) eq_refl).
    apply N2Z.inj_lt. rewrite Z2N.id by lia. apply H.
  - intros t [<-|[<-|[]]]; reflexivity.
Qed.

(** On a big-endian host the file is not readable: the writer converts the byte order, the reader does not. *)
Definition n_less (a b : vec N) : bool := N.ltb (vx a + 1000 * vy a + 1000000 * vz a) (vx b + 1000 * vy b + 1000000 * vz b).
Definition ex_mesh_n : mesh (vec N) := Mesh [Vec 0 0 0; Vec 1 0 0; Vec 0 1 0]%N [(0, 1, 2)] [Vec 0 0 1]%N.
Lemma big_endian_fails show6 scan normal : exists b,
  write_stl N (fun n => n mod 2 ^ 32)%N show6 (fun _ _ => None) big 1048576 ex_mesh_n enc_binary = Saved b /\
  read_stl N (fun n => n) scan n_less normal big b = LoadError.
Proof.
  exists (binary_bytes N (fun n => n mod 2 ^ 32)%N (num_triangles ex_mesh_n) [(Tri (Vec 0 0 0) (Vec 1 0 0) (Vec 0 1 0), Vec 0 0 1)]%N). split.
  - apply (write_binary_ok N (fun n => n mod 2 ^ 32)%N (fun _ _ => None) big 1048576 ex_mesh_n); reflexivity.
  - unfold read_stl. rewrite encoding_binary. change (num_triangles ex_mesh_n) with 1.
    match goal with |- read_stl_binary _ _ _ _ _ ?x = _ => set (b := x) end.
    assert (Lb : length b = 134) by reflexivity. assert (Cb : firstn 4 (skipn 80 b) = bytes_le 4 1) by reflexivity. clearbody b.
    assert (H := read_binary_any N (fun n => n) n_less normal big b). rewrite Cb, Lb in H.
    change (from_memory big (bytes_le 4 1)) with 16777216%N in H.
    destruct (read_stl_binary N (fun n => n) n_less normal big b) as [m| | |]; [|reflexivity | destruct H | destruct H].
    destruct H as (_ & H1 & H2). exfalso. lia.
Qed.
Theorem C33_big_endian_refuted : forall show6 scan normal, exists b,
  write_stl N (fun n => n mod 2 ^ 32)%N show6 (fun _ _ => None) big 1048576 ex_mesh_n enc_binary = Saved b /\
  read_stl N (fun n => n) scan n_less normal big b = LoadError.
Proof. exact big_endian_fails. Qed.
Print Assumptions C33_big_endian_refuted.

(** An instance of the conversion to text: one decimal digit. *)
Definition ex_show (n : N) : text := [ascii_of_N (48 + n mod 10)].
Definition is_digit (c : ascii) : bool := let n := N_of_ascii c in (48 <=? n)%N && (n <=? 57)%N.
Definition ex_scan (t : text) : scanned :=
  match skip_spaces t with
  | [] => Missing
  | c :: r => if is_digit c then Number (N_of_ascii c - 48) r else Invalid 0
  end.
Lemma mod10 n : (n mod 10 = 0 \/ n mod 10 = 1 \/ n mod 10 = 2 \/ n mod 10 = 3 \/ n mod 10 = 4 \/ n mod 10 = 5 \/ n mod 10 = 6 \/
  n mod 10 = 7 \/ n mod 10 = 8 \/ n mod 10 = 9)%N.
Proof. assert (H := N.mod_lt n 10 ltac:(discriminate)). revert H. generalize (n mod 10)%N. intros k H. lia. Qed.
Example C33_ascii_example :
  (forall d c, In c (ex_show d) -> In c numeric) /\
  (forall d rest, rest = [] \/ (exists r, rest = " "%char :: r) -> ex_scan (" "%char :: ex_show d ++ rest) = Number (d mod 10) rest).
Proof.
  split; [intros d c | intros d rest _]; unfold ex_show;
    destruct (mod10 d) as [E|[E|[E|[E|[E|[E|[E|[E|[E|E]]]]]]]]]; rewrite E.
  all: try (intros [<-|[]]; cbv; tauto). all: reflexivity.
Qed.

(** *** C34 *)
(** The encoding of a written file is recognised, for every mesh (also an empty one) and any text of the numbers. *)
Lemma encoding_recognised D to_float show6 disk host size (m : mesh (vec D)) e b : (size < 2 ^ 63)%N ->
  (forall a c, disk a c = None) -> write_stl D to_float show6 disk host size m e = Saved b -> get_encoding b = e.
Proof.
  intros S K H. destruct e; cbn [write_stl] in H.
  - destruct (visit_n m) as [l|] eqn:V; [|unfold write_stl_ascii in H; rewrite V in H; discriminate].
    rewrite (write_ascii_ok D show6 disk m l K V) in H. injection H as <-. apply encoding_ascii.
  - destruct (visit_n m) as [l|] eqn:V; [|unfold write_stl_binary in H; rewrite V in H; discriminate].
    rewrite (write_binary_ok D to_float disk host size m l S K V) in H. injection H as <-. apply encoding_binary.
Qed.
Theorem C34_encoding_recognised : forall D to_float show6 disk host size (m : mesh (vec D)) e b, (size < 2 ^ 63)%N ->
  (forall a c, disk a c = None) -> write_stl D to_float show6 disk host size m e = Saved b -> get_encoding b = e.
Proof. exact encoding_recognised. Qed.
Print Assumptions C34_encoding_recognised.
Example C34_example : (exists b, write_stl N (fun n => n mod 2 ^ 32)%N ex_show (fun _ _ => None) little 1048576 empty_mesh enc_ascii = Saved b) /\
  (exists b, write_stl N (fun n => n mod 2 ^ 32)%N ex_show (fun _ _ => None) little 1048576 ex_mesh_n enc_ascii = Saved b).
Proof. split; eexists; cbn [write_stl]; (erewrite write_ascii_ok; [reflexivity | reflexivity | reflexivity]). Qed.

(** *** C58 *)
(** Reading any bytes as a binary file: an error if the file is shorter than announced, otherwise a well-formed mesh
    with the announced number of triangles. *)
Theorem C58_any_binary_file : forall D of_float less normal host b, match read_stl_binary D of_float less normal host b with
  | Loaded m => well_formed m /\ N.of_nat (num_triangles m) = from_memory host (firstn 4 (skipn 80 b)) /\ 84 + 50 * num_triangles m <= length b
  | LoadError => (N.of_nat (length b) < 84 + 50 * from_memory host (firstn 4 (skipn 80 b)))%N
  | _ => False
  end.
Proof. exact read_binary_any. Qed.
Print Assumptions C58_any_binary_file.
(** Reading any file: reading ends; a mesh that is read is well formed; undefined behaviour only occurs in an ascii
    file that has, after the words "outer loop", a line without three numbers. *)
Lemma any_file D of_float scan less normal host b : match read_stl D of_float scan less normal host b with
  | Loaded m => well_formed m
  | LoadError => True
  | LoadUndefined => get_encoding b = enc_ascii /\ bad_line D of_float scan b
  | LoadFuel => False
  end.
Proof.
  unfold read_stl. destruct (get_encoding b).
  - assert (A := read_ascii_any D of_float scan less normal b). assert (B := read_ascii_undefined D of_float scan less normal b).
    destruct (read_stl_ascii D of_float scan less normal b); auto.
  - assert (A := read_binary_any D of_float less normal host b). destruct (read_stl_binary D of_float less normal host b); try destruct A; auto.
Qed.
Theorem C58_any_file : forall D of_float scan less normal host b, match read_stl D of_float scan less normal host b with
  | Loaded m => well_formed m
  | LoadError => True
  | LoadUndefined => get_encoding b = enc_ascii /\ bad_line D of_float scan b
  | LoadFuel => False
  end.
Proof. exact any_file. Qed.
Print Assumptions C58_any_file.
(** Such a file is not rejected: the third coordinate is used uninitialised. *)
Definition bad_file : bytes :=
  lit "solid x" ++ nl ++ lit "facet normal 0 0 1" ++ nl ++ lit "outer loop" ++ nl ++ lit "vertex 1 2" ++ nl ++
  lit "vertex 1 2 3" ++ nl ++ lit "vertex 1 2 3" ++ nl ++ lit "endloop" ++ nl ++ lit "endfacet" ++ nl ++ lit "endsolid x" ++ nl.
Theorem C58_malformed_vertex_refuted : forall normal, read_stl N (fun n => n) ex_scan n_less normal little bad_file = LoadUndefined.
Proof. intros normal. reflexivity. Qed.
Print Assumptions C58_malformed_vertex_refuted.
Example C58_example : forall normal, exists m, read_stl N (fun n => n) ex_scan n_less normal little
  (lit "solid x" ++ nl ++ lit "facet normal 0 0 1" ++ nl ++ lit "outer loop" ++ nl ++ lit "vertex 1 2 3" ++ nl ++
   lit "vertex 1 2 4" ++ nl ++ lit "vertex 1 5 3" ++ nl ++ lit "endloop" ++ nl ++ lit "endfacet" ++ nl ++ lit "endsolid x" ++ nl) = Loaded m
  /\ m_vertices m = [Vec 1 2 3; Vec 1 2 4; Vec 1 5 3]%N /\ m_triangles m = [(0, 1, 2)].
Proof. intros normal. eexists. split; [reflexivity|]. split; reflexivity. Qed.
