(** C61: the STL files of conditions. *)
From Coq Require Import String Ascii Bool NArith ZArith QArith Arith List Lia Nnat.
From Verif Require Import KeysModel JsonModel BufferModel BufferProofs PointOrderModel PointOrderProofs MeshModel MeshProofs
  StlModel StlProofs StlAsciiProofs StlProps VtkProofs.
Import ListNotations.
Local Open Scope nat_scope.

(** *** Model *)
(** The triangles of the meshes of all segments with their normals (VisitEachTriangle<WithNormals>), io_utilities.tpp:58-60
    and 75-78. *)
Fixpoint visit_segments {D} (ms : list (mesh D)) : option (list (tri D * D)) :=
  match ms with
  | [] => Some []
  | m :: ms' => match visit_n m, visit_segments ms' with Some l, Some r => Some (l ++ r) | _, _ => None end
  end.
(** std::accumulate in uint32_t, io_utilities.tpp:49-51. *)
Definition count_segments {D} (ms : list (mesh D)) : N :=
  fold_left (fun acc m => ((acc + N.of_nat (num_triangles m) mod 2 ^ 32) mod 2 ^ 32)%N) ms 0%N.
(** WriteConditionToSTL, io_utilities.tpp:37-91, for the list of the meshes of the segments; simplifications as in StlModel. *)
Definition write_condition {D} (to_float : D -> N) (show6 : D -> text) (disk : medium) (host : endian) (size : N) (ms : list (mesh (vec D))) (e : encoding) : saved :=
  match visit_segments ms with
  | None => SaveUndefined
  | Some l =>
      match e with
      | enc_binary =>
          match scope disk host little size new_file (Raw header :: Value 4 (count_segments ms) :: flat_map (stl_triangle_ops D to_float) l) with
          | Normal f => finish f
          | Exception f => SaveError (f_bytes f)
          | Terminated f => SaveTerminated (f_bytes f)
          | BufferOverrun => SaveUndefined
          end
      | enc_ascii => finish (put_all disk new_file ([lit "solid QuESoExport" ++ nl] ++ flat_map (stl_facet D show6) l ++ [lit "endsolid QuESoExport" ++ nl]))
      end
  end.

(** *** Specification *)
(** The triangles with normals of the segments, one segment after the other. *)
Definition segments_have {D} (ms : list (mesh D)) (ls : list (list (tri D * D))) : Prop := Forall2 (fun m l => visit_n m = Some l) ms ls.

(** *** Proofs *)
Lemma visit_segments_ok {D} (ms : list (mesh D)) ls : segments_have ms ls -> visit_segments ms = Some (concat ls).
Proof. induction 1 as [|m l ms ls V F IH]; [reflexivity|]. cbn [visit_segments concat]. rewrite V, IH. reflexivity. Qed.
Lemma count_acc {D} (ms : list (mesh D)) ls : segments_have ms ls -> forall a, (a < 2 ^ 32)%N ->
  fold_left (fun acc m => ((acc + N.of_nat (num_triangles m) mod 2 ^ 32) mod 2 ^ 32)%N) ms a = ((a + N.of_nat (length (concat ls))) mod 2 ^ 32)%N.
Proof.
  change (2 ^ 32)%N with 4294967296%N. induction 1 as [|m l ms ls V F IH]; intros a La; cbn [fold_left concat length].
  - rewrite N.add_0_r, N.mod_small by exact La. reflexivity.
  - rewrite IH by (apply N.mod_lt; discriminate). apply visit_seq in V as [Lm _]. rewrite app_length, Lm, Nat2N.inj_add, N.add_mod_idemp_l by discriminate.
    rewrite <- N.add_assoc, (N.add_comm (_ mod _)), N.add_assoc, N.add_mod_idemp_r by discriminate. f_equal. lia.
Qed.
Lemma count_ok {D} (ms : list (mesh D)) ls : segments_have ms ls -> count_segments ms = (N.of_nat (length (concat ls)) mod 2 ^ 32)%N.
Proof. intros H. unfold count_segments. rewrite (count_acc ms ls H 0%N) by reflexivity. reflexivity. Qed.
Lemma condition_binary_ok D to_float show6 disk host size (ms : list (mesh (vec D))) ls : (size < 2 ^ 63)%N -> (forall a b, disk a b = None) -> segments_have ms ls ->
  write_condition to_float show6 disk host size ms enc_binary = Saved (binary_bytes D to_float (length (concat ls)) (concat ls)).
Proof.
  intros S K H. unfold write_condition. rewrite (visit_segments_ok ms ls H), (scope_done disk little size S host new_file _ K eq_refl).
  unfold finish. cbn [f_good f_bytes new_file app]. f_equal. rewrite !written_cons, written_flat, (count_ok ms ls H). reflexivity.
Qed.
Lemma condition_ascii_ok D to_float show6 disk host size (ms : list (mesh (vec D))) ls : (forall a b, disk a b = None) -> segments_have ms ls ->
  write_condition to_float show6 disk host size ms enc_ascii = Saved (ascii_text D show6 (concat ls)).
Proof.
  intros K H. unfold write_condition. rewrite (visit_segments_ok ms ls H), put_all_ok by (auto; reflexivity).
  unfold finish, ascii_text. cbn [f_good f_bytes new_file app]. f_equal. cbn [concat]. rewrite concat_app.
  replace (concat (flat_map (stl_facet D show6) (concat ls))) with (flat_map (facet_text D show6) (concat ls)) by (symmetry; apply concat_flat_map).
  cbn [concat]. rewrite !app_nil_r, <- !app_assoc. reflexivity.
Qed.

(** *** C61 *)
(** The file of a condition is the file of a mesh with the triangles of all segments. *)
Lemma as_one_mesh D to_float show6 disk host size (ms : list (mesh (vec D))) ls m e : (size < 2 ^ 63)%N -> (forall a b, disk a b = None) -> segments_have ms ls -> visit_n m = Some (concat ls) ->
  exists b, write_condition to_float show6 disk host size ms e = Saved b /\ write_stl D to_float show6 disk host size m e = Saved b.
Proof.
  intros S K H V. assert (N : num_triangles m = length (concat ls)) by (apply visit_seq in V; symmetry; apply V). destruct e.
  - eexists. split; [apply condition_ascii_ok; eassumption | apply write_ascii_ok; assumption].
  - eexists. split; [apply condition_binary_ok; eassumption|]. unfold write_stl. rewrite (write_binary_ok D to_float disk host size m (concat ls) S K V), N. reflexivity.
Qed.
Theorem C61_one_mesh : forall D to_float show6 disk host size (ms : list (mesh (vec D))) ls m e, (size < 2 ^ 63)%N -> (forall a b, disk a b = None) -> segments_have ms ls -> visit_n m = Some (concat ls) ->
  exists b, write_condition to_float show6 disk host size ms e = Saved b /\ write_stl D to_float show6 disk host size m e = Saved b.
Proof. exact as_one_mesh. Qed.
Print Assumptions C61_one_mesh.
(** It reads back as the triangles of all segments, in single precision. *)
Lemma condition_binary D to_float of_float show6 scan less normal disk host size (ms : list (mesh (vec D))) ls :
  (size < 2 ^ 63)%N -> (forall a b, disk a b = None) -> (forall d, (to_float d < 2 ^ 32)%N) ->
  segments_have ms ls -> (N.of_nat (length (concat ls)) < 2 ^ 32)%N ->
  let ts := map (fun q => round_tri D to_float of_float (fst q)) (concat ls) in
  separated D less (points_of ts) ->
  exists b m', write_condition to_float show6 disk host size ms enc_binary = Saved b /\
    read_stl D of_float scan less normal little b = Loaded m' /\ merged D normal ts m'.
Proof.
  intros S K R V L ts Se. exists (binary_bytes D to_float (length (concat ls)) (concat ls)).
  destruct (facets_merged D less normal (points_of ts) ts Se) as [m' [E M]]; [intros t v I C; exists t; auto|].
  exists m'. split; [|split; [|exact M]].
  - apply condition_binary_ok; assumption.
  - unfold read_stl. rewrite encoding_binary. rewrite <- (app_nil_r (binary_bytes D to_float (length (concat ls)) (concat ls))), read_binary_ok by assumption. exact E.
Qed.
Theorem C61_binary : forall D to_float of_float show6 scan less normal disk host size (ms : list (mesh (vec D))) ls,
  (size < 2 ^ 63)%N -> (forall a b, disk a b = None) -> (forall d, (to_float d < 2 ^ 32)%N) ->
  segments_have ms ls -> (N.of_nat (length (concat ls)) < 2 ^ 32)%N ->
  let ts := map (fun q => round_tri D to_float of_float (fst q)) (concat ls) in
  separated D less (points_of ts) ->
  exists b m', write_condition to_float show6 disk host size ms enc_binary = Saved b /\
    read_stl D of_float scan less normal little b = Loaded m' /\ merged D normal ts m'.
Proof. exact condition_binary. Qed.
Print Assumptions C61_binary.
(** The same for the ascii encoding, with the numbers that result from writing and reading the decimal text. *)
Lemma condition_ascii D to_float of_float show6 scan less normal text_float disk host host' size (ms : list (mesh (vec D))) ls :
  (forall a b, disk a b = None) ->
  (forall d c, In c (show6 d) -> In c numeric) ->
  (forall d rest, rest = [] \/ (exists r, rest = " "%char :: r) -> scan (" "%char :: show6 d ++ rest) = Number (text_float d) rest) ->
  segments_have ms ls ->
  let ts := map (fun q => text_tri D of_float text_float (fst q)) (concat ls) in
  separated D less (points_of ts) ->
  exists b m', write_condition to_float show6 disk host size ms enc_ascii = Saved b /\
    read_stl D of_float scan less normal host' b = Loaded m' /\ merged D normal ts m'.
Proof.
  intros K Sn Ss V ts Se. exists (ascii_text D show6 (concat ls)).
  destruct (facets_merged D less normal (points_of ts) ts Se) as [m' [E M]]; [intros t v I C; exists t; auto|].
  exists m'. split; [|split; [|exact M]].
  - apply condition_ascii_ok; assumption.
  - unfold read_stl. rewrite encoding_ascii. rewrite (read_ascii_ok D of_float show6 scan less normal text_float) by assumption. exact E.
Qed.
Theorem C61_ascii : forall D to_float of_float show6 scan less normal text_float disk host host' size (ms : list (mesh (vec D))) ls,
  (forall a b, disk a b = None) ->
  (forall d c, In c (show6 d) -> In c numeric) ->
  (forall d rest, rest = [] \/ (exists r, rest = " "%char :: r) -> scan (" "%char :: show6 d ++ rest) = Number (text_float d) rest) ->
  segments_have ms ls ->
  let ts := map (fun q => text_tri D of_float text_float (fst q)) (concat ls) in
  separated D less (points_of ts) ->
  exists b m', write_condition to_float show6 disk host size ms enc_ascii = Saved b /\
    read_stl D of_float scan less normal host' b = Loaded m' /\ merged D normal ts m'.
Proof. exact condition_ascii. Qed.
Print Assumptions C61_ascii.
(** Whenever the medium fails: a success is only reported for a complete file, otherwise the file is a part of it from the start. *)
Lemma condition_failure D to_float show6 disk host size (ms : list (mesh (vec D))) ls e : (size < 2 ^ 63)%N -> segments_have ms ls -> exists full,
  write_condition to_float show6 (fun _ _ => None) host size ms e = Saved full /\
  match write_condition to_float show6 disk host size ms e with Saved b => b = full | SaveError b | SaveTerminated b => prefix b full | SaveUndefined => False end.
Proof.
  intros S H. destruct e.
  - exists (ascii_text D show6 (concat ls)). split; [apply condition_ascii_ok; [reflexivity | exact H]|].
    assert (E := condition_ascii_ok D to_float show6 (fun _ _ => None) host size ms ls (fun _ _ => eq_refl) H). revert E.
    unfold write_condition. rewrite (visit_segments_ok ms ls H), put_all_ok by reflexivity. unfold finish at 1. cbn [f_good f_bytes new_file]. intros E. apply (f_equal (fun r => match r with Saved b => b | _ => [] end)) in E. cbv beta iota in E. rewrite <- E. clear E.
    set (texts := [lit "solid QuESoExport" ++ nl] ++ _). destruct (put_cases disk texts new_file eq_refl) as [-> | [E P]]; [reflexivity|]. unfold finish. rewrite E. exact P.
  - exists (binary_bytes D to_float (length (concat ls)) (concat ls)). split; [apply condition_binary_ok; [exact S | reflexivity | exact H]|].
    assert (E := condition_binary_ok D to_float show6 (fun _ _ => None) host size ms ls S (fun _ _ => eq_refl) H). revert E.
    unfold write_condition. rewrite (visit_segments_ok ms ls H), (scope_done (fun _ _ => None) little size S host new_file _ (fun _ _ => eq_refl) eq_refl). unfold finish at 1. cbn [f_good f_bytes new_file]. intros E. apply (f_equal (fun r => match r with Saved b => b | _ => [] end)) in E. cbv beta iota in E. rewrite <- E. clear E.
    set (ops := Raw header :: _). assert (K := scope_ok disk little size S host new_file ops eq_refl). destruct (scope disk host little size new_file ops) as [f|f|f|].
    + destruct K as [G B]. unfold finish. rewrite G, B. reflexivity.
    + apply K.
    + apply K.
    + exact K.
Qed.
Theorem C61_failure : forall D to_float show6 disk host size (ms : list (mesh (vec D))) ls e, (size < 2 ^ 63)%N -> segments_have ms ls -> exists full,
  write_condition to_float show6 (fun _ _ => None) host size ms e = Saved full /\
  match write_condition to_float show6 disk host size ms e with Saved b => b = full | SaveError b | SaveTerminated b => prefix b full | SaveUndefined => False end.
Proof. exact condition_failure. Qed.
Print Assumptions C61_failure.
(** The same for a mesh: it is written as a condition with one segment. *)
Lemma mesh_failure D to_float show6 disk host size (m : mesh (vec D)) l e : (size < 2 ^ 63)%N -> visit_n m = Some l -> exists full,
  write_stl D to_float show6 (fun _ _ => None) host size m e = Saved full /\
  match write_stl D to_float show6 disk host size m e with Saved b => b = full | SaveError b | SaveTerminated b => prefix b full | SaveUndefined => False end.
Proof.
  intros S V. assert (H : segments_have [m] [l]) by (constructor; [exact V | constructor]). assert (E : forall disk, write_stl D to_float show6 disk host size m e = write_condition to_float show6 disk host size [m] e).
  { intros d. unfold write_condition. rewrite (visit_segments_ok [m] [l] H). cbn [concat]. rewrite app_nil_r. unfold write_stl, write_stl_ascii, write_stl_binary. rewrite V.
    rewrite (count_ok [m] [l] H). cbn [concat]. rewrite app_nil_r. apply visit_seq in V as [-> _]. reflexivity. }
  rewrite !E. apply condition_failure with (ls := [l]); assumption.
Qed.
Theorem C33_failure : forall D to_float show6 disk host size (m : mesh (vec D)) l e, (size < 2 ^ 63)%N -> visit_n m = Some l -> exists full,
  write_stl D to_float show6 (fun _ _ => None) host size m e = Saved full /\
  match write_stl D to_float show6 disk host size m e with Saved b => b = full | SaveError b | SaveTerminated b => prefix b full | SaveUndefined => False end.
Proof. exact mesh_failure. Qed.
Print Assumptions C33_failure.

(** The triangle count in a binary file is the number of triangles modulo 2^32: the guard of C61_binary is needed. *)
Lemma condition_count D to_float show6 disk host size (ms : list (mesh (vec D))) ls : (size < 2 ^ 63)%N -> (forall a b, disk a b = None) -> segments_have ms ls -> exists b,
  write_condition to_float show6 disk host size ms enc_binary = Saved b /\ firstn 4 (skipn 80 b) = bytes_le 4 (N.of_nat (length (concat ls)) mod 2 ^ 32) /\ length b = 84 + 50 * length (concat ls).
Proof.
  intros S K H. eexists. split; [apply condition_binary_ok; eassumption|]. unfold binary_bytes. assert (L : forall w n, length (bytes_le w n) = w) by (induction w as [|w IH]; intros n; cbn [bytes_le length]; [reflexivity | rewrite IH; reflexivity]). split.
  - rewrite (skipn_app_exact header _ 80) by reflexivity. rewrite firstn_app_exact by apply L. reflexivity.
  - rewrite !app_length, L. replace (length header) with 80 by reflexivity.
    assert (F : forall l : list (tri (vec D) * vec D), length (flat_map (triangle_bytes D to_float) l) = 50 * length l).
    { induction l as [|q l IH]; [reflexivity|]. cbn [flat_map length]. rewrite app_length, IH, triangle_bytes_eq, !app_length, !vec_bytes_length, L. lia. }
    rewrite F. lia.
Qed.
Theorem C61_count : forall D to_float show6 disk host size (ms : list (mesh (vec D))) ls, (size < 2 ^ 63)%N -> (forall a b, disk a b = None) -> segments_have ms ls -> exists b,
  write_condition to_float show6 disk host size ms enc_binary = Saved b /\ firstn 4 (skipn 80 b) = bytes_le 4 (N.of_nat (length (concat ls)) mod 2 ^ 32) /\ length b = 84 + 50 * length (concat ls).
Proof. exact condition_count. Qed.
Print Assumptions C61_count.

(** An instance: two segments that share an edge. *)
Definition ex_segments : list (mesh (vec Q)) :=
  [Mesh [Vec 0 0 0; Vec 1 0 (1 # 4); Vec 0 (3 # 2) 0]%Q [(0, 1, 2)] [Vec 0 0 1]%Q; Mesh [Vec 0 (3 # 2) 0; Vec 1 0 (1 # 4); Vec 5 5 5]%Q [(0, 1, 2)] [Vec 0 0 1]%Q].
Definition ex_lists : list (list (tri (vec Q) * vec Q)) := map (fun t => [(t, Vec 0 0 1)%Q]) ex_tris.
Example C61_example : segments_have ex_segments ex_lists /\ (N.of_nat (length (concat ex_lists)) < 2 ^ 32)%N /\ (forall d, (ex_to_float d < 2 ^ 32)%N) /\
  map (fun q => round_tri Q ex_to_float ex_of_float (fst q)) (concat ex_lists) = ex_tris /\ separated Q q_less (points_of ex_tris).
Proof.
  split; [repeat constructor|]. split; [reflexivity|]. split; [apply C33_example|]. split; [reflexivity | exact ex_separated].
Qed.
