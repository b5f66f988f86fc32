(** C56: the VTK files of meshes, elements and integration points. *)
From Coq Require Import String Ascii Bool NArith Arith List Lia Nnat.
From Verif Require Import KeysModel JsonModel BufferModel BufferProofs MeshModel MeshProofs StlModel StlProofs VtkModel VtkSpec VtkProofs.
Import ListNotations.
Local Open Scope nat_scope.

(** The cells of a file with their indices replaced by the points they refer to; None: no such point. *)
Definition shapes (v : vtk) : list (list (option (atom * atom * atom))) :=
  map (map (fun i => nth_error (v_points v) (N.to_nat i))) (v_cells v).
(** The corners of a VTK hexahedron: the lower face, then the upper face, each counterclockwise. *)
Definition on_upper (k : nat) : bool * bool * bool :=
  (existsb (Nat.eqb k) [1; 2; 5; 6], existsb (Nat.eqb k) [2; 3; 6; 7], existsb (Nat.eqb k) [4; 5; 6; 7]).
Definition box_corner {D} (b : vec D * vec D) (k : nat) : vec D :=
  let '(l, u) := b in let '(x, y, z) := on_upper k in Vec (if x then vx u else vx l) (if y then vy u else vy l) (if z then vz u else vz l).
(** The largest number of points that a file can refer to. *)
Definition index_limit (e : encoding) : N := match e with enc_binary => 2 ^ 32 | enc_ascii => 2 ^ 60 end%N.

Lemma nth_flat {A B} (f : A -> list B) k : (forall x, length (f x) = k) -> forall l i x j, nth_error l i = Some x -> j < k ->
  nth_error (flat_map f l) (k * i + j) = nth_error (f x) j.
Proof.
  intros K. induction l as [ | y l IH]; intros [ | i] x j E J; cbn [nth_error flat_map] in *; try discriminate.
  - injection E as ->. rewrite nth_error_app1 by (rewrite K; lia). f_equal. lia.
  - rewrite nth_error_app2 by (rewrite K; nia). rewrite K, <- (IH i x j E J). f_equal. nia.
Qed.
Lemma map_seq_list {A B} (g : nat -> B) (h : A -> B) l : forall s, (forall i x, nth_error l i = Some x -> g (s + i) = h x) -> map g (seq s (length l)) = map h l.
Proof.
  induction l as [ | x l IH]; intros s H; cbn [length seq map]; [reflexivity | ]. f_equal.
  - rewrite <- (H 0 x eq_refl). f_equal. lia.
  - apply IH. intros i y E. rewrite <- (H (S i) y E). f_equal. lia.
Qed.
Lemma flat_map_len {A B} (f : A -> list B) k l : (forall x, length (f x) = k) -> length (flat_map f l) = k * length l.
Proof. intros K. induction l as [ | x l IH]; cbn [flat_map length]; [lia | ]. rewrite app_length, K, IH. lia. Qed.
Lemma concat_map_len {A B} (f : A -> list B) k l : (forall x, length (f x) = k) -> length (concat (map f l)) = k * length l.
Proof. intros K. rewrite <- flat_map_concat_map. apply flat_map_len, K. Qed.
Lemma size_nat n : (N.of_nat n < 2 ^ 64)%N -> N.to_nat (size_of_nat n) = n.
Proof. intros H. unfold size_of_nat. rewrite N.mod_small by exact H. apply Nat2N.id. Qed.
Lemma size_mul_nat n k : (N.of_nat n * k < 2 ^ 64)%N -> (0 < k)%N -> N.to_nat (size_mul (size_of_nat n) k) = N.to_nat k * n.
Proof.
  intros H K. unfold size_mul, size_of_nat. rewrite (N.mod_small (N.of_nat n)) by nia. rewrite N.mod_small by exact H. lia.
Qed.
Lemma limit_64 e n : (n <= index_limit e)%N -> (n <= 2 ^ 60)%N.
Proof. destruct e; cbn [index_limit]; intros H; [exact H | ]. eapply N.le_trans; [exact H | discriminate]. Qed.
Lemma index_fits e i n : (i < n)%N -> (n <= index_limit e)%N -> index_of e i = i.
Proof. destruct e; cbn [index_limit index_of]; intros A B; [reflexivity | ]. apply N.mod_small. lia. Qed.

Section Files.
Variable D : Type.
Variable bits : D -> N.
Variable show15 : D -> text.
Hypothesis bits_size : forall d, (bits d < 2 ^ 64)%N.
Hypothesis show_plain : forall d, plain_word (show15 d).
Notation atoms := (atoms_of D bits show15).

Lemma good_disk_run disk host size steps : (size < 2 ^ 63)%N -> (forall a b, disk a b = None) -> run disk host size steps new_file = Saved (all_bytes steps).
Proof. intros S K. rewrite run_done by auto. reflexivity. Qed.

(** Meshes. *)
Lemma mesh_read e (m : mesh (vec D)) l : visit m = Some l -> (4 * N.of_nat (length l) < 2 ^ 64)%N ->
  read_vtk (all_bytes (mesh_steps D bits show15 e m l)) =
  Some (Vtk (map (atoms e) (flat_map (tri_vertices D) l)) (map (fun i => map (index_of e) (map N.of_nat [3 * i; 3 * i + 1; 3 * i + 2])) (seq 0 (length l))) (repeat 5%N (length l)) None).
Proof.
  intros V B. assert (L := proj1 (proj1 (visit_seq _ _ _) V)). unfold mesh_steps. cbv zeta. rewrite <- L.
  assert (B' : (N.of_nat (3 * length l) < 2 ^ 64)%N) by lia.
  assert (Lc : length (map mesh_cell (seq 0 (length l))) = length l) by (rewrite map_length, seq_length; reflexivity).
  pose proof (file_read D bits show15 bits_size show_plain e (size_of_nat (length (flat_map (tri_vertices D) l))) (flat_map (tri_vertices D) l)
    (size_of_nat (length l)) (size_mul (size_of_nat (length l)) 4) (map mesh_cell (seq 0 (length l))) 5) as F.
  rewrite Lc in F. rewrite F.
  - f_equal. f_equal. rewrite map_map. apply map_ext. intros i. unfold mesh_cell. cbn [tl map]. repeat f_equal; lia.
  - rewrite (flat_map_len _ 3) by reflexivity. apply size_nat, B'.
  - apply Forall_forall. intros c Hc. apply in_map_iff in Hc as (i & <- & _). do 2 eexists. split; [reflexivity | ]. split; reflexivity.
  - apply size_nat. lia.
  - rewrite (concat_map_len _ 4) by reflexivity. rewrite seq_length, size_mul_nat by lia. reflexivity.
  - reflexivity.
Qed.
Lemma mesh_vtk disk host size e (m : mesh (vec D)) l : (size < 2 ^ 63)%N -> (forall a b, disk a b = None) -> visit m = Some l ->
  (3 * N.of_nat (length l) <= index_limit e)%N ->
  exists b v, write_mesh_vtk D bits show15 disk host size m e = Saved b /\ read_vtk b = Some v /\
    v_points v = map (atoms e) (flat_map (fun t => [P1 t; P2 t; P3 t]) l) /\
    shapes v = map (fun t => [Some (atoms e (P1 t)); Some (atoms e (P2 t)); Some (atoms e (P3 t))]) l /\
    v_types v = repeat 5%N (length l) /\ v_scalars v = None.
Proof.
  intros S K V B. unfold write_mesh_vtk. rewrite V. pose proof (limit_64 _ _ B) as B64.
  assert (B4 : (4 * N.of_nat (length l) < 2 ^ 64)%N) by (change (2 ^ 60)%N with 1152921504606846976%N in B64; change (2 ^ 64)%N with 18446744073709551616%N; lia).
  rewrite good_disk_run by assumption. do 2 eexists. split; [reflexivity | ]. split; [apply mesh_read; eassumption | ].
  split; [reflexivity | ]. split; [ | split; reflexivity]. unfold shapes. cbn [v_cells v_points]. rewrite map_map. apply map_seq_list.
  intros i t E. assert (I : i < length l) by (apply nth_error_Some; congruence). cbn [map Nat.add].
  rewrite !(index_fits e _ (3 * N.of_nat (length l))) by (exact B || lia). rewrite !Nat2N.id.
  assert (G : forall j, j < 3 -> nth_error (map (atoms e) (flat_map (tri_vertices D) l)) (3 * i + j) = nth_error (map (atoms e) (tri_vertices D t)) j).
  { intros j J. rewrite !nth_error_map. f_equal. apply (nth_flat (tri_vertices D) 3); auto. }
  rewrite <- (Nat.add_0_r (3 * i)) at 1. rewrite !G by lia. reflexivity.
Qed.

(** Elements. *)
Lemma element_read e (l : list (vec D * vec D)) : (9 * N.of_nat (length l) < 2 ^ 64)%N ->
  read_vtk (all_bytes (element_steps D bits show15 e l)) =
  Some (Vtk (map (atoms e) (flat_map (hexahedron D) l)) (map (fun i => map (fun j => index_of e (N.of_nat (8 * i + j))) (seq 0 8)) (seq 0 (length l))) (repeat 12%N (length l)) None).
Proof.
  intros B. unfold element_steps. cbv zeta.
  assert (L8 : forall b, length (hexahedron D b) = 8) by (intros [? ?]; reflexivity).
  assert (Lc : length (map (hexahedron_cell e) (seq 0 (length l))) = length l) by (rewrite map_length, seq_length; reflexivity).
  pose proof (file_read D bits show15 bits_size show_plain e (size_mul (size_of_nat (length l)) 8) (flat_map (hexahedron D) l)
    (size_of_nat (length l)) (size_mul (size_of_nat (length l)) 9) (map (hexahedron_cell e) (seq 0 (length l))) 12) as F.
  rewrite Lc in F. rewrite F.
  - f_equal. f_equal. rewrite map_map. apply map_ext_in. intros i Hi. apply in_seq in Hi as [_ Hi]. cbn [Nat.add] in Hi.
    unfold hexahedron_cell. cbn [tl]. rewrite map_map. change [0; 1; 2; 3; 4; 5; 6; 7]%N with (map N.of_nat (seq 0 8)). rewrite map_map.
    apply map_ext_in. intros j Hj. apply in_seq in Hj as [_ Hj]. destruct e; cbn [index_of].
    + change (2 ^ 64)%N with 18446744073709551616%N in *. rewrite N.mod_small by lia. lia.
    + unfold uint32. rewrite N.mod_mod by discriminate.
      replace (N.of_nat (8 * i + j)) with (8 * N.of_nat i + N.of_nat j)%N by lia.
      rewrite <- (N.add_mod_idemp_l (8 * (N.of_nat i mod 2 ^ 32))) by discriminate. rewrite N.mul_mod_idemp_r by discriminate.
      rewrite N.add_mod_idemp_l by discriminate. reflexivity.
  - rewrite (flat_map_len _ 8) by exact L8. rewrite size_mul_nat by lia. reflexivity.
  - apply Forall_forall. intros c Hc. apply in_map_iff in Hc as (i & <- & _). do 2 eexists. split; [reflexivity | ]. split; reflexivity.
  - apply size_nat. lia.
  - rewrite (concat_map_len _ 9) by reflexivity. rewrite seq_length, size_mul_nat by lia. reflexivity.
  - reflexivity.
Qed.
Lemma elements_vtk disk host size e (l : list (vec D * vec D)) : (size < 2 ^ 63)%N -> (forall a b, disk a b = None) ->
  (8 * N.of_nat (length l) <= index_limit e)%N ->
  exists b v, write_elements_vtk D bits show15 disk host size l e = Saved b /\ read_vtk b = Some v /\
    length (v_points v) = 8 * length l /\
    shapes v = map (fun c => map (fun k => Some (atoms e (box_corner c k))) (seq 0 8)) l /\
    v_types v = repeat 12%N (length l) /\ v_scalars v = None.
Proof.
  intros S K B. unfold write_elements_vtk. pose proof (limit_64 _ _ B) as B64.
  assert (B9 : (9 * N.of_nat (length l) < 2 ^ 64)%N) by (change (2 ^ 60)%N with 1152921504606846976%N in B64; change (2 ^ 64)%N with 18446744073709551616%N; lia).
  assert (L8 : forall b, length (hexahedron D b) = 8) by (intros [? ?]; reflexivity).
  rewrite good_disk_run by assumption. do 2 eexists. split; [reflexivity | ]. split; [apply element_read; eassumption | ].
  split; [cbn [v_points]; rewrite map_length; apply flat_map_len, L8 | ]. split; [ | split; reflexivity]. unfold shapes. cbn [v_cells v_points].
  rewrite map_map. apply map_seq_list. intros i c E. assert (I : i < length l) by (apply nth_error_Some; congruence). cbn [Nat.add]. rewrite map_map.
  apply map_ext_in. intros j Hj. apply in_seq in Hj as [_ Hj]. cbn [Nat.add] in Hj.
  rewrite (index_fits e _ (8 * N.of_nat (length l))) by (exact B || lia). rewrite Nat2N.id, nth_error_map.
  rewrite (nth_flat _ 8 L8 l i c j E Hj). destruct c as [lo up].
  do 8 (destruct j as [ | j]; [reflexivity | ]). lia.
Qed.

(** Points. *)
Lemma sum_lengths {A} (l : list (list A)) : forall acc, fold_left (fun acc ps => acc + length ps) l acc = acc + length (concat l).
Proof. induction l as [ | p l IH]; intros acc; cbn [fold_left concat length]; [lia | ]. rewrite IH, app_length. lia. Qed.
Lemma flat_map_map {A B} (f : A -> B) l : flat_map (map f) l = map f (concat l).
Proof. induction l as [ | p l IH]; cbn [flat_map concat]; [reflexivity | ]. rewrite map_app, IH. reflexivity. Qed.
Lemma weight_data e (l : list (list (wpoint D))) : step_bytes (match e with
   | enc_binary => Block (flat_map (map (fun q => Value 8 (bits (wp_weight D q)))) l)
   | enc_ascii => Put (flat_map (fun ps => flat_map (fun q => [show15 (wp_weight D q); nl]) ps) l)
   end) = flat_map (real_bytes D bits show15 e "010") (map (wp_weight D) (concat l)).
Proof.
  destruct e; cbn [step_bytes].
  - rewrite flat_map_concat_map, (flat_map_concat_map (real_bytes D bits show15 enc_ascii "010")), map_map.
    induction l as [ | p l IH]; [reflexivity | ]. cbn [map concat]. rewrite !map_app, !concat_app. f_equal; [ | exact IH].
    clear IH. induction p as [ | q p IH]; [reflexivity | ]. cbn [flat_map map concat]. cbn [app concat]. cbn [real_bytes]. rewrite <- app_assoc. f_equal. f_equal. exact IH.
  - rewrite flat_map_map. unfold written. rewrite map_map, (flat_map_concat_map (real_bytes D bits show15 enc_binary "010")), map_map. reflexivity.
Qed.
Lemma points_read_back e (l : list (list (wpoint D))) : (2 * N.of_nat (length (concat l)) < 2 ^ 64)%N ->
  read_vtk (all_bytes (point_steps D bits show15 e l)) =
  Some (Vtk (map (fun q => atoms e (wp_pos D q)) (concat l)) (map (fun i => [index_of e (N.of_nat i)]) (seq 0 (length (concat l)))) (repeat 1%N (length (concat l)))
    (Some (lit "Weights", map (fun q => atom_of D bits show15 e (wp_weight D q)) (concat l)))).
Proof.
  intros B. unfold point_steps. cbv zeta. rewrite sum_lengths, flat_map_map. cbn [Nat.add].
  set (f := fun i => [1%N; N.of_nat i]).
  assert (Lc : length (map f (seq 0 (length (concat l)))) = length (concat l)) by (rewrite map_length, seq_length; reflexivity).
  pose proof (file_read_weights D bits show15 bits_size show_plain e (size_of_nat (length (concat l))) (map (wp_pos D) (concat l))
    (size_of_nat (length (concat l))) (size_mul (size_of_nat (length (concat l))) 2) (map f (seq 0 (length (concat l)))) 1 (map (wp_weight D) (concat l))
    (match e with
     | enc_binary => Block (flat_map (map (fun q => Value 8 (bits (wp_weight D q)))) l)
     | enc_ascii => Put (flat_map (fun ps => flat_map (fun q => [show15 (wp_weight D q); nl]) ps) l)
     end)) as F.
  rewrite Lc in F. rewrite F.
  - rewrite !map_map. reflexivity.
  - rewrite map_length. apply size_nat. lia.
  - apply Forall_forall. intros c Hc. apply in_map_iff in Hc as (i & <- & _). do 2 eexists. split; [reflexivity | ]. split; reflexivity.
  - apply size_nat. lia.
  - rewrite (concat_map_len _ 2) by reflexivity. rewrite seq_length, size_mul_nat by lia. reflexivity.
  - reflexivity.
  - rewrite !map_length. reflexivity.
  - apply weight_data.
Qed.
Lemma points_vtk disk host size e (l : list (list (wpoint D))) : (size < 2 ^ 63)%N -> (forall a b, disk a b = None) ->
  (N.of_nat (length (concat l)) <= index_limit e)%N ->
  exists b v, write_points_vtk D bits show15 disk host size l e = Saved b /\ read_vtk b = Some v /\
    v_points v = map (fun q => atoms e (wp_pos D q)) (concat l) /\
    shapes v = map (fun q => [Some (atoms e (wp_pos D q))]) (concat l) /\
    v_types v = repeat 1%N (length (concat l)) /\
    v_scalars v = Some (lit "Weights", map (fun q => atom_of D bits show15 e (wp_weight D q)) (concat l)).
Proof.
  intros S K B. unfold write_points_vtk. pose proof (limit_64 _ _ B) as B64.
  assert (B2 : (2 * N.of_nat (length (concat l)) < 2 ^ 64)%N) by (change (2 ^ 60)%N with 1152921504606846976%N in B64; change (2 ^ 64)%N with 18446744073709551616%N; lia).
  rewrite good_disk_run by assumption. do 2 eexists. split; [reflexivity | ]. split; [apply points_read_back; eassumption | ].
  split; [reflexivity | ]. split; [ | split; reflexivity]. unfold shapes. cbn [v_cells v_points]. rewrite map_map. apply map_seq_list.
  intros i q E. assert (I : i < length (concat l)) by (apply nth_error_Some; congruence). cbn [map Nat.add].
  rewrite (index_fits e _ (N.of_nat (length (concat l)))) by (exact B || lia). rewrite Nat2N.id, nth_error_map, E. reflexivity.
Qed.
End Files.

(** A mesh is written completely: the file contains the corners of the triangles in order, and the k-th cell is the k-th
    triangle. *)
Theorem C56_mesh : forall D bits show15, (forall d : D, (bits d < 2 ^ 64)%N) -> (forall d, plain_word (show15 d)) ->
  forall disk host size e (m : mesh (vec D)) l, (size < 2 ^ 63)%N -> (forall a b, disk a b = None) -> visit m = Some l ->
  (3 * N.of_nat (length l) <= index_limit e)%N ->
  exists b v, write_mesh_vtk D bits show15 disk host size m e = Saved b /\ read_vtk b = Some v /\
    v_points v = map (atoms_of D bits show15 e) (flat_map (fun t => [P1 t; P2 t; P3 t]) l) /\
    shapes v = map (fun t => [Some (atoms_of D bits show15 e (P1 t)); Some (atoms_of D bits show15 e (P2 t)); Some (atoms_of D bits show15 e (P3 t))]) l /\
    v_types v = repeat 5%N (length l) /\ v_scalars v = None.
Proof. exact mesh_vtk. Qed.
Print Assumptions C56_mesh.

(** The k-th cell of the file of elements is the hexahedron of the bounds of the k-th element. *)
Theorem C56_elements : forall D bits show15, (forall d : D, (bits d < 2 ^ 64)%N) -> (forall d, plain_word (show15 d)) ->
  forall disk host size e (l : list (vec D * vec D)), (size < 2 ^ 63)%N -> (forall a b, disk a b = None) ->
  (8 * N.of_nat (length l) <= index_limit e)%N ->
  exists b v, write_elements_vtk D bits show15 disk host size l e = Saved b /\ read_vtk b = Some v /\
    length (v_points v) = 8 * length l /\
    shapes v = map (fun c => map (fun k => Some (atoms_of D bits show15 e (box_corner c k))) (seq 0 8)) l /\
    v_types v = repeat 12%N (length l) /\ v_scalars v = None.
Proof. exact elements_vtk. Qed.
Print Assumptions C56_elements.

(** The file of integration points contains every point of every element once, in order, with its weight. *)
Theorem C56_points : forall D bits show15, (forall d : D, (bits d < 2 ^ 64)%N) -> (forall d, plain_word (show15 d)) ->
  forall disk host size e (l : list (list (wpoint D))), (size < 2 ^ 63)%N -> (forall a b, disk a b = None) ->
  (N.of_nat (length (concat l)) <= index_limit e)%N ->
  exists b v, write_points_vtk D bits show15 disk host size l e = Saved b /\ read_vtk b = Some v /\
    v_points v = map (fun q => atoms_of D bits show15 e (wp_pos D q)) (concat l) /\
    shapes v = map (fun q => [Some (atoms_of D bits show15 e (wp_pos D q))]) (concat l) /\
    v_types v = repeat 1%N (length (concat l)) /\
    v_scalars v = Some (lit "Weights", map (fun q => atom_of D bits show15 e (wp_weight D q)) (concat l)).
Proof. exact points_vtk. Qed.
Print Assumptions C56_points.

(** Two elements and two meshes and points whose hypotheses hold. *)
Definition ex_bits (n : N) : N := (n mod 2 ^ 64)%N.
Definition ex_box : vec N * vec N := (Vec 1 2 3, Vec 4 5 6)%N.
Example C56_example : (forall d, (ex_bits d < 2 ^ 64)%N) /\ (forall d, plain_word (show_index d)) /\
  (exists b v, write_elements_vtk N ex_bits show_index (fun _ _ => None) little 1048576 [ex_box; ex_box] enc_ascii = Saved b /\ read_vtk b = Some v /\
    nth_error (nth 1 (shapes v) []) 6 = Some (Some (Shown (lit "4"), Shown (lit "5"), Shown (lit "6")))) /\
  (exists b v, write_points_vtk N ex_bits show_index (fun _ _ => None) little 1048576 [[WPoint N (Vec 1 2 3) 7]; []; [WPoint N (Vec 4 5 6) 8]]%N enc_binary = Saved b /\
    read_vtk b = Some v /\ v_scalars v = Some (lit "Weights", [Stored 7; Stored 8]) /\ length (v_points v) = 2) /\
  (exists b v l, visit (Mesh [Vec 1 2 3; Vec 4 5 6; Vec 7 8 9; Vec 1 1 1]%N [(0, 1, 2); (2, 1, 3)] [Vec 0 0 1; Vec 0 0 1]%N) = Some l /\
    write_mesh_vtk N ex_bits show_index (fun _ _ => None) little 1048576 (Mesh [Vec 1 2 3; Vec 4 5 6; Vec 7 8 9; Vec 1 1 1]%N [(0, 1, 2); (2, 1, 3)] [Vec 0 0 1; Vec 0 0 1]%N) enc_binary = Saved b /\
    read_vtk b = Some v /\ length (shapes v) = 2).
Proof.
  assert (H1 : forall d, (ex_bits d < 2 ^ 64)%N) by (intros d; apply N.mod_lt; discriminate).
  assert (H2 : forall d, plain_word (show_index d)) by apply index_plain.
  split; [exact H1 | ]. split; [exact H2 | ]. split; [ | split].
  - destruct (C56_elements N ex_bits show_index H1 H2 (fun _ _ => None) little 1048576 enc_ascii [ex_box; ex_box]) as (b & v & W & R & _ & Sh & _);
      [reflexivity | reflexivity | discriminate | ]. exists b, v. rewrite Sh. auto.
  - destruct (C56_points N ex_bits show_index H1 H2 (fun _ _ => None) little 1048576 enc_binary [[WPoint N (Vec 1 2 3) 7]; []; [WPoint N (Vec 4 5 6) 8]]%N)
      as (b & v & W & R & P & _ & _ & Sc); [reflexivity | reflexivity | discriminate | ]. exists b, v. rewrite Sc, P. auto.
  - match goal with |- context [visit ?m] => set (m0 := m) end.
    assert (V : exists l, visit m0 = Some l) by (eexists; reflexivity). destruct V as [l V].
    destruct (C56_mesh N ex_bits show_index H1 H2 (fun _ _ => None) little 1048576 enc_binary m0 l) as (b & v & W & R & P & Sh & _);
      [reflexivity | reflexivity | exact V | cbv in V; injection V as <-; discriminate | ].
    exists b, v, l. rewrite Sh, map_length. cbv in V. injection V as <-. auto.
Qed.

(** With 2^29 elements or more the 32-bit indices of a binary file wrap: element 2^29 refers to the points of element 0. *)
Lemma wrap_refuted D bits show15 disk host size (l : list (vec D * vec D)) :
  (forall d : D, (bits d < 2 ^ 64)%N) -> (forall d, plain_word (show15 d)) -> (size < 2 ^ 63)%N -> (forall a b, disk a b = None) ->
  (2 ^ 29 < N.of_nat (length l) < 2 ^ 60)%N ->
  exists b v, write_elements_vtk D bits show15 disk host size l enc_binary = Saved b /\ read_vtk b = Some v /\
    nth_error (v_cells v) 0 <> None /\ nth_error (v_cells v) (N.to_nat (2 ^ 29)) = nth_error (v_cells v) 0.
Proof.
  intros Hb Hs S K [B1 B2]. unfold write_elements_vtk. rewrite good_disk_run by assumption. do 2 eexists. split; [reflexivity | ].
  split; [apply element_read; try assumption; change (2 ^ 60)%N with 1152921504606846976%N in B2; change (2 ^ 64)%N with 18446744073709551616%N; lia | ].
  cbn [v_cells]. set (w := N.to_nat (2 ^ 29)). assert (W : N.of_nat w = (2 ^ 29)%N) by apply N2Nat.id. clearbody w. split.
  - rewrite nth_error_map. destruct l; [cbn in B1; lia | discriminate].
  - rewrite !nth_error_map.
    assert (N0 : forall i, i < length l -> nth_error (seq 0 (length l)) i = Some i).
    { intros i I. rewrite (nth_error_nth' _ 0) by (rewrite seq_length; exact I). rewrite seq_nth by exact I. reflexivity. }
    rewrite !N0 by lia. cbn [option_map]. f_equal. apply map_ext. intros j. cbn [index_of].
    replace (N.of_nat (8 * w + j)) with (N.of_nat (8 * 0 + j) + 1 * 2 ^ 32)%N; [apply N.mod_add; discriminate | ].
    replace (N.of_nat (8 * w + j)) with (8 * N.of_nat w + N.of_nat j)%N by lia. rewrite W. change (8 * 2 ^ 29)%N with (1 * 2 ^ 32)%N. lia.
Qed.
Theorem C56_wrap_refuted : forall D bits show15 disk host size (l : list (vec D * vec D)),
  (forall d : D, (bits d < 2 ^ 64)%N) -> (forall d, plain_word (show15 d)) -> (size < 2 ^ 63)%N -> (forall a b, disk a b = None) ->
  (2 ^ 29 < N.of_nat (length l) < 2 ^ 60)%N ->
  exists b v, write_elements_vtk D bits show15 disk host size l enc_binary = Saved b /\ read_vtk b = Some v /\
    nth_error (v_cells v) 0 <> None /\ nth_error (v_cells v) (N.to_nat (2 ^ 29)) = nth_error (v_cells v) 0.
Proof. exact wrap_refuted. Qed.
Print Assumptions C56_wrap_refuted.
Example C56_wrap_example : exists l : list (vec N * vec N), (2 ^ 29 < N.of_nat (length l) < 2 ^ 60)%N.
Proof. exists (repeat ex_box (N.to_nat (2 ^ 29 + 1))). rewrite repeat_length, N2Nat.id. split; reflexivity. Qed.

(** On a medium that may fail: a file is reported as written only if it is complete, and otherwise it is the beginning of
    the complete file.  Stated for meshes, elements and points. *)
Definition complete_or_prefix (full : bytes) (s : saved) : Prop :=
  match s with Saved b => b = full | SaveError b | SaveTerminated b => exists rest, full = b ++ rest | SaveUndefined => False end.
Lemma any_run disk host size steps : (size < 2 ^ 63)%N -> complete_or_prefix (all_bytes steps) (run disk host size steps new_file).
Proof.
  intros S. pose proof (run_ok disk host size steps S new_file eq_refl) as R. unfold complete_or_prefix.
  destruct (run disk host size steps new_file); [exact R | | | exact R]; destruct R as [r R]; exists r; exact R.
Qed.
Lemma failing_medium D bits show15 disk host size e : (size < 2 ^ 63)%N ->
  (forall (m : mesh (vec D)) l full, visit m = Some l ->
     write_mesh_vtk D bits show15 (fun _ _ => None) host size m e = Saved full -> complete_or_prefix full (write_mesh_vtk D bits show15 disk host size m e)) /\
  (forall l full, write_elements_vtk D bits show15 (fun _ _ => None) host size l e = Saved full ->
     complete_or_prefix full (write_elements_vtk D bits show15 disk host size l e)) /\
  (forall l full, write_points_vtk D bits show15 (fun _ _ => None) host size l e = Saved full ->
     complete_or_prefix full (write_points_vtk D bits show15 disk host size l e)).
Proof.
  intros S. split; [ | split].
  - intros m l full V. unfold write_mesh_vtk. rewrite V, good_disk_run by auto. intros E. injection E as <-. apply any_run, S.
  - intros l full. unfold write_elements_vtk. rewrite good_disk_run by auto. intros E. injection E as <-. apply any_run, S.
  - intros l full. unfold write_points_vtk. rewrite good_disk_run by auto. intros E. injection E as <-. apply any_run, S.
Qed.
Theorem C56_failing_medium : forall D bits show15 disk host size e, (size < 2 ^ 63)%N ->
  (forall (m : mesh (vec D)) l full, visit m = Some l ->
     write_mesh_vtk D bits show15 (fun _ _ => None) host size m e = Saved full -> complete_or_prefix full (write_mesh_vtk D bits show15 disk host size m e)) /\
  (forall l full, write_elements_vtk D bits show15 (fun _ _ => None) host size l e = Saved full ->
     complete_or_prefix full (write_elements_vtk D bits show15 disk host size l e)) /\
  (forall l full, write_points_vtk D bits show15 (fun _ _ => None) host size l e = Saved full ->
     complete_or_prefix full (write_points_vtk D bits show15 disk host size l e)).
Proof. exact failing_medium. Qed.
Print Assumptions C56_failing_medium.
(** A medium that takes 5 bytes of the second line: the file ends there and an exception is thrown. *)
Example C56_failing_example :
  match write_elements_vtk N ex_bits show_index (fun have _ => match have with [] => None | _ => Some 5 end) little 1048576 [ex_box] enc_ascii with
  | SaveError b => b = lit "# vtk DataFile Version 4.1" ++ nl ++ lit "vtk o" | _ => False end.
Proof. vm_compute. reflexivity. Qed.
