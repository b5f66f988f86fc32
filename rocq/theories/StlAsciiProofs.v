(** Proofs about STL files with ascii encoding. *)
From Coq Require Import String Ascii Bool NArith Arith List Lia Nnat.
From Verif Require Import KeysModel JsonModel BufferModel BufferProofs MeshModel MeshProofs StlModel StlProofs.
Import ListNotations.
Local Open Scope nat_scope.

Lemma starts_with_in a b c : starts_with a b = true -> In c a -> In c b.
Proof.
  revert b. induction a as [|x a IH]; intros b H I; [destruct I|]. destruct b as [|y b]; [discriminate|]. cbn in H.
  apply andb_true_iff in H as [E H]. apply Ascii.eqb_eq in E as ->. destruct I as [->|I]; [left; reflexivity | right; apply IH; assumption].
Qed.
Lemma contains_in a b c : contains a b = true -> In c a -> In c b.
Proof.
  revert a. induction b as [|y b IH]; intros a H I; cbn [contains] in H; apply orb_true_iff in H as [H|H].
  - exact (starts_with_in _ _ _ H I).
  - discriminate.
  - exact (starts_with_in _ _ _ H I).
  - right. apply (IH a); assumption.
Qed.

Section Ascii.
Variable D : Type.
Variable of_float : N -> D.
Variable show6 : D -> text.
Variable scan : text -> scanned.
Variable less : vec D -> vec D -> bool.
Variable normal : tri (vec D) -> vec D.
Notation add_facet := (add_facet D less normal).
Notation read_facets := (read_facets D of_float scan less normal).
Notation read_facet := (read_facet D of_float scan).
Notation next_vertex := (next_vertex D of_float scan).
Notation facet_text := (facet_text D show6).
Notation ascii_text := (ascii_text D show6).

(** ** Any bytes *)
Lemma expect_shrinks k s line s' line' : expect k s line = Loaded (s', line') -> length (i_rest s') <= length (i_rest s).
Proof.
  unfold expect. destruct (getline s line) as [[l s1] ok] eqn:E. apply getline_shrinks in E.
  destruct (_ || _); [discriminate|]. intros H. injection H as <- <-. exact E.
Qed.
Lemma vertex_shrinks s line v s' line' : next_vertex s line = Loaded (v, s', line') -> length (i_rest s') <= length (i_rest s).
Proof.
  unfold StlModel.next_vertex. destruct (getline s line) as [[l s1] ok] eqn:E. apply getline_shrinks in E.
  destruct ok; [|discriminate]. destruct (vertex_of_line D of_float scan l); [|discriminate]. intros H. injection H as <- <- <-. exact E.
Qed.
Lemma expect_fuel k s line : expect k s line <> LoadFuel.
Proof. unfold expect. destruct (getline s line) as [[l s1] ok]. destruct (_ || _); discriminate. Qed.
Lemma vertex_fuel s line : next_vertex s line <> LoadFuel.
Proof.
  unfold StlModel.next_vertex. destruct (getline s line) as [[l s1] ok]. destruct ok; [|discriminate].
  destruct (vertex_of_line D of_float scan l); discriminate.
Qed.
Lemma facet_any s line : match read_facet s line with
  | Loaded (t, s', line') => length (i_rest s') <= length (i_rest s) | LoadFuel => False | _ => True end.
Proof.
  unfold StlModel.read_facet, lbind.
  destruct (expect (lit "outer loop") s line) as [[s1 l1]| | |] eqn:E1; [|exact I|exact I|exact (expect_fuel _ _ _ E1)]. apply expect_shrinks in E1.
  destruct (next_vertex s1 l1) as [[[v2 s2] l2]| | |] eqn:E2; [|exact I|exact I|exact (vertex_fuel _ _ E2)]. apply vertex_shrinks in E2.
  destruct (next_vertex s2 l2) as [[[v3 s3] l3]| | |] eqn:E3; [|exact I|exact I|exact (vertex_fuel _ _ E3)]. apply vertex_shrinks in E3.
  destruct (next_vertex s3 l3) as [[[v4 s4] l4]| | |] eqn:E4; [|exact I|exact I|exact (vertex_fuel _ _ E4)]. apply vertex_shrinks in E4.
  destruct (expect (lit "endloop") s4 l4) as [[s5 l5]| | |] eqn:E5; [|exact I|exact I|exact (expect_fuel _ _ _ E5)]. apply expect_shrinks in E5.
  destruct (expect (lit "endfacet") s5 l5) as [[s6 l6]| | |] eqn:E6; [|exact I|exact I|exact (expect_fuel _ _ _ E6)]. apply expect_shrinks in E6.
  lia.
Qed.
Lemma facets_any fuel : forall s line r, length (i_rest s) < fuel -> match read_facets fuel s line r with
  | Loaded r' => exists ts, r' = fold_left add_facet ts r | LoadFuel => False | _ => True end.
Proof.
  induction fuel as [|fuel IH]; intros s line r L; [lia|]. cbn [StlModel.read_facets].
  destruct (contains (lit "endsolid") line); [exists []; reflexivity|].
  destruct (contains (lit "facet") line).
  - assert (A := facet_any s line). destruct (read_facet s line) as [[[t s1] l1]| | |]; cbn [lbind]; [|exact I|exact I|exact A].
    destruct (getline s1 l1) as [[l2 s2] ok] eqn:G. destruct ok; [|exists [t]; reflexivity].
    apply getline_consumes in G. assert (B := IH s2 l2 (add_facet r t) ltac:(lia)).
    destruct (read_facets fuel s2 l2 (add_facet r t)); try exact B. destruct B as [ts ->]. exists (t :: ts). reflexivity.
  - cbn [lbind]. destruct (getline s line) as [[l2 s2] ok] eqn:G. destruct ok; [|exists []; reflexivity].
    apply getline_consumes in G. apply IH. lia.
Qed.
Lemma skip_any fuel : forall s line, length (i_rest s) < fuel -> match skip_to_facet fuel s line with
  | Loaded (s', _) => length (i_rest s') <= length (i_rest s) | _ => False end.
Proof.
  induction fuel as [|fuel IH]; intros s line L; [lia|]. cbn [skip_to_facet].
  destruct (getline s line) as [[l2 s2] ok] eqn:G. assert (H := getline_shrinks _ _ _ _ _ G). destruct ok; [|exact H].
  destruct (contains (lit "facet") l2); [exact H|]. apply getline_consumes in G. specialize (IH s2 l2 ltac:(lia)).
  destruct (skip_to_facet fuel s2 l2) as [[s3 l3]| | |]; try exact IH. lia.
Qed.
Lemma read_ascii_any b : match read_stl_ascii D of_float scan less normal b with
  | Loaded m => well_formed m | LoadFuel => False | _ => True end.
Proof.
  unfold read_stl_ascii. assert (A := skip_any (S (S (length b))) (new_input b) [] ltac:(cbn [new_input i_rest]; lia)).
  destruct (skip_to_facet _ (new_input b) []) as [[s l]| | |]; cbn [lbind]; try contradiction. cbn [new_input i_rest] in A.
  assert (B := facets_any (S (S (length b))) s l (new_reader D) ltac:(lia)).
  destruct (read_facets (S (S (length b))) s l (new_reader D)) as [r| | |]; cbn [lbind]; try exact B.
  destruct B as [ts ->]. destruct (add_facets_any D less normal ts (new_reader D) (new_consistent D) empty_wf) as (_ & W & _).
  destruct (fold_left add_facet ts (new_reader D)) as [[m im] index]. cbn [r_mesh fst] in W. unfold checked.
  rewrite (proj2 (check_iff m) W). exact W.
Qed.

(** ** Undefined behaviour *)
(** A line of a file. *)
Definition line_at (b : bytes) (pre line post : text) : Prop :=
  b = pre ++ line ++ post /\ no_newline line /\ (pre = [] \/ exists p, pre = p ++ [newline]) /\ (post = [] \/ exists p, post = newline :: p).
Definition stream_at (b : bytes) (s : istream) (pre : text) : Prop :=
  i_good s = true -> b = pre ++ i_rest s /\ (pre = [] \/ exists p, pre = p ++ [newline]).
Lemma split_line_no b : no_newline (fst (split_line b)).
Proof.
  induction b as [|c b IH]; cbn [split_line]; [intros []|]. destruct (Ascii.eqb_spec c newline) as [E|E]; [intros []|].
  destruct (split_line b) as [l r]. cbn [fst] in *. intros [H|H]; [apply E; exact H | exact (IH H)].
Qed.
Lemma getline_at b s x pre line s' ok : stream_at b s pre -> getline s x = (line, s', ok) -> ok = true ->
  exists post, line_at b pre line post /\ stream_at b s' (pre ++ line ++ [newline]).
Proof.
  unfold getline. intros St. destruct (i_good s) eqn:G; [|intros E; injection E as <- <- <-; discriminate].
  destruct (St G) as [B P]. assert (N := split_line_no (i_rest s)). destruct (split_line (i_rest s)) as [l [r|]] eqn:E; apply split_line_shorter in E; cbn [fst] in N.
  - intros H _. injection H as <- <- _. exists (newline :: r). split.
    + rewrite E in B. split; [exact B|]. split; [exact N|]. split; [exact P|]. right. eauto.
    + intros _. cbn [i_rest]. rewrite B, E. split; [repeat (rewrite <- ?app_assoc; cbn [app]); reflexivity|].
      right. exists (pre ++ l). rewrite app_assoc. reflexivity.
  - intros H _. injection H as <- <- _. exists []. split.
    + split; [rewrite app_nil_r, <- E; exact B|]. split; [exact N|]. split; [exact P|]. left. reflexivity.
    + intros X. discriminate.
Qed.
(** The line is one of the three lines after a line with the words "outer loop". *)
Definition bad_line (b : bytes) : Prop := exists pre line post,
  line_at b pre line post /\ contains (lit "outer loop") pre = true /\ vertex_of_line D of_float scan line = None.
Lemma expect_at b k s line pre s' line' : stream_at b s pre -> expect k s line = Loaded (s', line') ->
  exists pre', stream_at b s' (pre' ++ line' ++ [newline]) /\ contains k line' = true.
Proof.
  intros St. unfold expect. destruct (getline s line) as [[l s1] ok] eqn:G. destruct (i_good s1) eqn:Go; cbn [negb orb]; [|discriminate].
  destruct (contains k l) eqn:K; [|discriminate]. intros E. injection E as <- <-. exists pre.
  assert (O : ok = true).
  { unfold getline in G. destruct (i_good s) eqn:Gs; [|injection G as <- <- <-; congruence].
    destruct (split_line (i_rest s)) as [x [y|]]; injection G as <- <- <-; [reflexivity | discriminate]. }
  destruct (getline_at _ _ _ _ _ _ _ St G O) as [post [_ H]]. split; assumption.
Qed.
Lemma contains_app_l a b c : contains a b = true -> contains a (b ++ c) = true.
Proof.
  assert (S : forall x y, starts_with x y = true -> starts_with x (y ++ c) = true).
  { induction x as [|u x IH]; intros y H; [reflexivity|]. destruct y as [|v y]; [discriminate|]. cbn in *.
    apply andb_true_iff in H as [-> H]. apply IH, H. }
  induction b as [|x b IH]; cbn [contains]; intros H; apply orb_true_iff in H as [H|H].
  - apply contains_starts, S, H.
  - discriminate.
  - apply contains_starts, S, H.
  - cbn [app contains]. rewrite (IH H), orb_true_r. reflexivity.
Qed.
Lemma vertex_at b s line pre : stream_at b s pre -> contains (lit "outer loop") pre = true ->
  match next_vertex s line with
  | Loaded (v, s', line') => exists pre', stream_at b s' pre' /\ contains (lit "outer loop") pre' = true
  | LoadUndefined => bad_line b
  | _ => True
  end.
Proof.
  intros St C. unfold StlModel.next_vertex. destruct (getline s line) as [[l s1] ok] eqn:G. destruct ok; [|exact I].
  destruct (getline_at _ _ _ _ _ _ _ St G eq_refl) as [post [L St']].
  destruct (vertex_of_line D of_float scan l) as [v|] eqn:Ve.
  - exists (pre ++ l ++ [newline]). split; [exact St' | apply contains_app_l, C].
  - exists pre, l, post. auto.
Qed.
Lemma facet_at b s line pre : stream_at b s pre -> match read_facet s line with
  | Loaded (t, s', line') => exists pre', stream_at b s' pre'
  | LoadUndefined => bad_line b | _ => True end.
Proof.
  intros St. unfold StlModel.read_facet, lbind.
  destruct (expect (lit "outer loop") s line) as [[s1 l1]| | |] eqn:E1; [|exact I| |exact I].
  2: { unfold expect in E1. destruct (getline s line) as [[? ?] ?]. destruct (_ || _); discriminate. }
  destruct (expect_at _ _ _ _ _ _ _ St E1) as [p1 [St1 K1]]. apply (contains_app_l _ _ [newline]), (contains_app p1) in K1.
  assert (V2 := vertex_at b s1 l1 _ St1 K1). destruct (next_vertex s1 l1) as [[[v2 s2] l2]| | |]; try exact V2. destruct V2 as [p2 [St2 K2]].
  assert (V3 := vertex_at b s2 l2 _ St2 K2). destruct (next_vertex s2 l2) as [[[v3 s3] l3]| | |]; try exact V3. destruct V3 as [p3 [St3 K3]].
  assert (V4 := vertex_at b s3 l3 _ St3 K3). destruct (next_vertex s3 l3) as [[[v4 s4] l4]| | |]; try exact V4. destruct V4 as [p4 [St4 K4]].
  destruct (expect (lit "endloop") s4 l4) as [[s5 l5]| | |] eqn:E5; [|exact I| |exact I].
  2: { unfold expect in E5. destruct (getline s4 l4) as [[? ?] ?]. destruct (_ || _); discriminate. }
  destruct (expect_at _ _ _ _ _ _ _ St4 E5) as [p5 [St5 _]].
  destruct (expect (lit "endfacet") s5 l5) as [[s6 l6]| | |] eqn:E6; [|exact I| |exact I].
  2: { unfold expect in E6. destruct (getline s5 l5) as [[? ?] ?]. destruct (_ || _); discriminate. }
  destruct (expect_at _ _ _ _ _ _ _ St5 E6) as [p6 [St6 _]]. eauto.
Qed.
Lemma facets_at b fuel : forall s line r pre, stream_at b s pre -> read_facets fuel s line r = LoadUndefined -> bad_line b.
Proof.
  induction fuel as [|fuel IH]; intros s line r pre St; cbn [StlModel.read_facets]; [discriminate|].
  destruct (contains (lit "endsolid") line); [discriminate|]. destruct (contains (lit "facet") line).
  - assert (A := facet_at b s line pre St). destruct (read_facet s line) as [[[t s1] l1]| | |]; cbn [lbind]; [|discriminate | auto | discriminate].
    destruct A as [p1 St1]. destruct (getline s1 l1) as [[l2 s2] ok] eqn:G. destruct ok; [|discriminate].
    destruct (getline_at _ _ _ _ _ _ _ St1 G eq_refl) as [post [_ St2]]. exact (IH _ _ _ _ St2).
  - cbn [lbind]. destruct (getline s line) as [[l2 s2] ok] eqn:G. destruct ok; [|discriminate].
    destruct (getline_at _ _ _ _ _ _ _ St G eq_refl) as [post [_ St2]]. exact (IH _ _ _ _ St2).
Qed.
Lemma skip_at b fuel : forall s line pre s' line', stream_at b s pre -> skip_to_facet fuel s line = Loaded (s', line') -> exists pre', stream_at b s' pre'.
Proof.
  induction fuel as [|fuel IH]; intros s line pre s' line' St; cbn [skip_to_facet]; [discriminate|].
  destruct (getline s line) as [[l2 s2] ok] eqn:G. destruct ok.
  - destruct (getline_at _ _ _ _ _ _ _ St G eq_refl) as [post [_ St2]]. destruct (contains (lit "facet") l2).
    + intros E. injection E as <- <-. eauto.
    + apply (IH _ _ _ _ _ St2).
  - intros E. injection E as <- <-. exists pre. intros Go. unfold getline in G. destruct (i_good s) eqn:Gs.
    + destruct (split_line (i_rest s)) as [x [y|]]; injection G as <- <- H; [discriminate | discriminate Go].
    + injection G as <- <-. congruence.
Qed.
Lemma read_ascii_undefined b : read_stl_ascii D of_float scan less normal b = LoadUndefined -> bad_line b.
Proof.
  unfold read_stl_ascii. destruct (skip_to_facet _ (new_input b) []) as [[s l]| | |] eqn:E; cbn [lbind]; try discriminate.
  - assert (S0 : stream_at b (new_input b) []) by (intros _; split; [reflexivity | left; reflexivity]).
    destruct (skip_at b _ _ _ [] _ _ S0 E) as [p St].
    destruct (read_facets (S (S (length b))) s l (new_reader D)) as [r| | |] eqn:F; cbn [lbind]; try discriminate.
    + destruct r as [[m im] index]. unfold checked. destruct (check m); discriminate.
    + intros _. exact (facets_at b _ _ _ _ _ St F).
  - intros _. assert (A := skip_any (S (S (length b))) (new_input b) [] ltac:(cbn [new_input i_rest]; lia)). rewrite E in A. destruct A.
Qed.

(** ** Written files *)
(** What is assumed about the conversion of numbers to text and back: a number is written with the characters of
    decimal numbers, and it can be read after a space, up to the next space or the end of the line; [text_float] is the
    float that is read. *)
Definition numeric : text := lit "0123456789.+-infa".
Variable text_float : D -> N.
Hypothesis show_numeric : forall d c, In c (show6 d) -> In c numeric.
Hypothesis show_scan : forall d rest, rest = [] \/ (exists r, rest = " "%char :: r) ->
  scan (" "%char :: show6 d ++ rest) = Number (text_float d) rest.
Definition text_vec (v : vec D) : vec D := Vec (of_float (text_float (vx v))) (of_float (text_float (vy v))) (of_float (text_float (vz v))).
Definition text_tri (t : tri (vec D)) : tri (vec D) := Tri (text_vec (P1 t)) (text_vec (P2 t)) (text_vec (P3 t)).

Definition coords (v : vec D) : text := show6 (vx v) ++ " "%char :: show6 (vy v) ++ " "%char :: show6 (vz v).
Lemma coords_in v c : In c (coords v) -> In c numeric \/ c = " "%char.
Proof.
  unfold coords. rewrite in_app_iff. cbn [In]. rewrite in_app_iff. cbn [In].
  intros [H|[H|[H|[H|H]]]]; [left; exact (show_numeric _ _ H) | right; congruence | left; exact (show_numeric _ _ H) | right; congruence | left; exact (show_numeric _ _ H)].
Qed.
Lemma coords_newline a v : no_newline a -> no_newline (a ++ coords v).
Proof.
  intros A. unfold no_newline. rewrite in_app_iff. intros [H|H]; [exact (A H)|]. apply coords_in in H as [H|H]; [|discriminate].
  revert H. cbv. intuition discriminate.
Qed.
Lemma facet_text_eq q : facet_text q =
  (lit "facet normal " ++ coords (snd q)) ++ newline :: lit "outer loop" ++ newline ::
  (lit "vertex " ++ coords (P1 (fst q))) ++ newline :: (lit "vertex " ++ coords (P2 (fst q))) ++ newline ::
  (lit "vertex " ++ coords (P3 (fst q))) ++ newline :: lit "endloop" ++ newline :: lit "endfacet" ++ [newline].
Proof.
  unfold StlProofs.facet_text, stl_facet, show_vec, coords, sp. change nl with [newline]. rewrite !concat_app. cbn [concat app].
  rewrite ?app_nil_r, <- ?app_assoc. cbn [app lit list_ascii_of_string]. rewrite <- ?app_assoc. cbn [app].
  repeat (rewrite <- ?app_assoc; cbn [app]). reflexivity.
Qed.
Lemma vertex_line v : vertex_of_line D of_float scan (lit "vertex " ++ coords v) = Some (text_vec v).
Proof.
  unfold vertex_of_line. replace (after_word (skip_spaces (lit "vertex " ++ coords v))) with (" "%char :: coords v) by reflexivity.
  unfold coords. rewrite show_scan by eauto. rewrite show_scan by eauto.
  rewrite <- (app_nil_r (show6 (vz v))), show_scan by auto. reflexivity.
Qed.
Lemma next_vertex_ok v r x : next_vertex (new_input ((lit "vertex " ++ coords v) ++ newline :: r)) x = Loaded (text_vec v, new_input r, lit "vertex " ++ coords v).
Proof.
  unfold StlModel.next_vertex. rewrite getline_nl; [rewrite vertex_line; reflexivity|]. apply coords_newline. cbv. intuition discriminate.
Qed.
Lemma expect_ok k r x : no_newline k -> expect k (new_input (k ++ newline :: r)) x = Loaded (new_input r, k).
Proof.
  intros N. unfold expect. rewrite getline_nl by exact N. cbn [i_good new_input negb orb].
  rewrite contains_starts; [reflexivity|]. assert (H := starts_with_app k []). rewrite app_nil_r in H. exact H.
Qed.
Definition first_line (q : tri (vec D) * vec D) : text := lit "facet normal " ++ coords (snd q).
Definition other_lines (q : tri (vec D) * vec D) : text :=
  lit "outer loop" ++ newline ::
  (lit "vertex " ++ coords (P1 (fst q))) ++ newline :: (lit "vertex " ++ coords (P2 (fst q))) ++ newline ::
  (lit "vertex " ++ coords (P3 (fst q))) ++ newline :: lit "endloop" ++ newline :: lit "endfacet" ++ [newline].
Lemma facet_lines q : facet_text q = first_line q ++ newline :: other_lines q.
Proof. apply facet_text_eq. Qed.
Lemma app_cons_assoc {A} (a : list A) x b c : (a ++ x :: b) ++ c = a ++ x :: (b ++ c).
Proof. rewrite <- app_assoc. reflexivity. Qed.
Lemma read_facet_ok q r x : read_facet (new_input (other_lines q ++ r)) x = Loaded (text_tri (fst q), new_input r, lit "endfacet").
Proof.
  unfold other_lines, StlModel.read_facet. rewrite !app_cons_assoc. cbn [app].
  rewrite expect_ok by (cbv; intuition discriminate). cbn [lbind].
  rewrite next_vertex_ok. cbn [lbind]. rewrite next_vertex_ok. cbn [lbind]. rewrite next_vertex_ok. cbn [lbind].
  rewrite expect_ok by (cbv; intuition discriminate). cbn [lbind].
  rewrite expect_ok by (cbv; intuition discriminate). reflexivity.
Qed.
Lemma first_line_newline q : no_newline (first_line q).
Proof. apply coords_newline. cbv. intuition discriminate. Qed.
Lemma first_line_facet q : contains (lit "facet") (first_line q) = true.
Proof. apply contains_starts. reflexivity. Qed.
Lemma first_line_end q : contains (lit "endsolid") (first_line q) = false.
Proof.
  destruct (contains (lit "endsolid") (first_line q)) eqn:E; [|reflexivity]. exfalso.
  apply (contains_in _ _ "s"%char) in E; [|cbv; tauto]. unfold first_line in E. apply in_app_iff in E as [E|E].
  - revert E. cbv. intuition discriminate.
  - apply coords_in in E as [E|E]; [|discriminate]. revert E. cbv. intuition discriminate.
Qed.
Definition end_text : text := lit "endsolid QuESoExport" ++ [newline].
Lemma facets_loop l : forall q fuel r, length l + 1 < fuel ->
  read_facets fuel (new_input (other_lines q ++ flat_map facet_text l ++ end_text)) (first_line q) r =
  Loaded (fold_left add_facet (map (fun q => text_tri (fst q)) (q :: l)) r).
Proof.
  induction l as [|q' l IH]; intros q fuel r F; destruct fuel as [|fuel]; try (cbn in F; lia); cbn [StlModel.read_facets];
    rewrite first_line_end, first_line_facet, read_facet_ok; cbn [lbind].
  - cbn [flat_map app]. unfold end_text. rewrite getline_nl by (cbv; intuition discriminate).
    destruct fuel as [|fuel]; [cbn in F; lia|]. reflexivity.
  - cbn [flat_map]. rewrite facet_lines, <- !app_assoc, <- app_comm_cons, getline_nl by apply first_line_newline.
    rewrite IH by (cbn in F; lia). reflexivity.
Qed.
Lemma flat_map_longer l : length l <= length (flat_map facet_text l).
Proof.
  induction l as [|q l IH]; [reflexivity|]. cbn [flat_map length]. rewrite app_length, facet_lines, app_length. cbn [length]. lia.
Qed.
Lemma read_ascii_ok l : read_stl_ascii D of_float scan less normal (ascii_text l) =
  checked D (fold_left add_facet (map (fun q => text_tri (fst q)) l) (new_reader D)).
Proof.
  unfold read_stl_ascii. set (fuel := S (S (length (ascii_text l)))).
  assert (F : length l + 3 < fuel).
  { unfold fuel, StlProofs.ascii_text. rewrite !app_length. assert (H := flat_map_longer l). cbn [length lit list_ascii_of_string]. lia. }
  unfold StlProofs.ascii_text. change nl with [newline]. cbn [app]. fold end_text. clearbody fuel.
  destruct fuel as [|fuel]; [lia|]. cbn [skip_to_facet]. rewrite getline_nl by (cbv; intuition discriminate).
  replace (contains (lit "facet") (lit "solid QuESoExport")) with false by reflexivity.
  destruct l as [|q l].
  - destruct fuel as [|[|fuel]]; cbn [length] in F; [lia | lia |]. reflexivity.
  - destruct fuel as [|fuel]; [lia|]. cbn [skip_to_facet flat_map].
    rewrite facet_lines, <- !app_assoc, <- app_comm_cons, getline_nl by apply first_line_newline. rewrite first_line_facet. cbn [lbind].
    rewrite facets_loop by (cbn [length] in F; lia). reflexivity.
Qed.

End Ascii.
