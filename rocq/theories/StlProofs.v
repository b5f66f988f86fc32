(** Proofs about the STL files. *)
From Coq Require Import String Ascii Bool NArith Arith List Lia Nnat.
From Verif Require Import KeysModel JsonModel BufferModel BufferProofs MeshModel MeshProofs StlModel.
Import ListNotations.
Local Open Scope nat_scope.

(** ** Text *)
Lemma starts_with_app a b : starts_with a (a ++ b) = true.
Proof. induction a as [|x a IH]; cbn; [reflexivity | rewrite Ascii.eqb_refl; exact IH]. Qed.
Lemma contains_starts a b : starts_with a b = true -> contains a b = true.
Proof. destruct b; cbn [contains]; intros ->; reflexivity. Qed.
Lemma contains_app a b c : contains b c = true -> contains b (a ++ c) = true.
Proof. intros H. induction a as [|x a IH]; cbn [app contains]; [exact H|]. rewrite IH, orb_true_r. reflexivity. Qed.
Definition no_newline (t : text) : Prop := ~ In newline t.
Lemma split_line_nl l r : no_newline l -> split_line (l ++ newline :: r) = (l, Some r).
Proof.
  induction l as [|c l IH]; intros N; cbn [app split_line]; [reflexivity|].
  destruct (Ascii.eqb_spec c newline) as [->|H]; [exfalso; apply N; left; reflexivity|].
  rewrite IH; [reflexivity|]. intros I. apply N. right. exact I.
Qed.
Lemma split_line_end l : no_newline l -> split_line l = (l, None).
Proof.
  induction l as [|c l IH]; intros N; cbn [split_line]; [reflexivity|].
  destruct (Ascii.eqb_spec c newline) as [->|H]; [exfalso; apply N; left; reflexivity|].
  rewrite IH; [reflexivity|]. intros I. apply N. right. exact I.
Qed.
Lemma getline_nl l r x : no_newline l -> getline (new_input (l ++ newline :: r)) x = (l, new_input r, true).
Proof. intros N. unfold getline. cbn [i_good i_rest new_input]. rewrite split_line_nl by exact N. reflexivity. Qed.
Lemma getline_empty x : getline (new_input []) x = ([], {| i_rest := []; i_good := false |}, false).
Proof. reflexivity. Qed.
Lemma split_line_shorter b l r : split_line b = (l, r) -> match r with Some r => b = l ++ newline :: r | None => b = l end.
Proof.
  revert l r. induction b as [|c b IH]; intros l r; cbn [split_line].
  - intros E. injection E as <- <-. reflexivity.
  - destruct (Ascii.eqb_spec c newline) as [->|H].
    + intros E. injection E as <- <-. reflexivity.
    + destruct (split_line b) as [l' r'] eqn:E'. intros E. injection E as <- <-. specialize (IH l' r' eq_refl).
      destruct r'; subst; reflexivity.
Qed.
(** Successful calls of getline consume at least one byte. *)
Lemma getline_consumes s x line s' : getline s x = (line, s', true) -> length (i_rest s') < length (i_rest s).
Proof.
  unfold getline. destruct (i_good s); [|discriminate]. destruct (split_line (i_rest s)) as [l [r|]] eqn:E; apply split_line_shorter in E.
  - intros H. injection H as <- <-. cbn [i_rest]. rewrite E, app_length. cbn. lia.
  - intros H. injection H as <- <-. cbn [i_rest length]. destruct l; [discriminate|]. rewrite E. cbn. lia.
Qed.
Lemma getline_shrinks s x line s' ok : getline s x = (line, s', ok) -> length (i_rest s') <= length (i_rest s).
Proof.
  destruct ok; [intros H; apply getline_consumes in H; lia|].
  unfold getline. destruct (i_good s); [|intros E; injection E as <- <-; lia]. destruct (split_line (i_rest s)) as [l [r|]] eqn:E.
  - discriminate.
  - intros H. injection H as <- <-. cbn [i_rest length]. lia.
Qed.

(** ** Reading bytes *)
Lemma read_app n a b : length a = n -> read n (a ++ b) = Some (a, b).
Proof.
  intros <-. unfold read. rewrite app_length. replace (length a <=? length a + length b) with true by (symmetry; apply Nat.leb_le; lia).
  rewrite firstn_app, Nat.sub_diag, firstn_all, firstn_O, app_nil_r, skipn_app, skipn_all, Nat.sub_diag. reflexivity.
Qed.
Lemma read_short n b : length b < n -> read n b = None.
Proof. intros H. unfold read. replace (n <=? length b) with false by (symmetry; apply Nat.leb_gt; exact H). reflexivity. Qed.
Lemma read_some n b c r : read n b = Some (c, r) -> b = c ++ r /\ length c = n.
Proof.
  unfold read. destruct (Nat.leb_spec n (length b)) as [H|H]; [|discriminate]. intros E. injection E as <- <-.
  rewrite firstn_skipn, firstn_length. split; [reflexivity | lia].
Qed.

(** ** Encoding *)
Section Stl.
Variable D : Type.
Variable to_float : D -> N.
Variable of_float : N -> D.
Variable show6 : D -> text.
Variable scan : text -> scanned.
Variable less : vec D -> vec D -> bool.
Variable normal : tri (vec D) -> vec D.
Notation stl_tri := (tri (vec D)).

Notation wbinary := (write_stl_binary D to_float).
Notation wascii := (write_stl_ascii D show6).

(** The bytes of a file if the medium does not fail. *)
Definition triangle_bytes (q : stl_tri * vec D) : bytes := written little (stl_triangle_ops D to_float q).
Definition binary_bytes (n : nat) (l : list (stl_tri * vec D)) : bytes :=
  header ++ bytes_le 4 (N.of_nat n mod 2 ^ 32) ++ flat_map triangle_bytes l.
Lemma written_app e a b : written e (a ++ b) = written e a ++ written e b.
Proof. unfold written. rewrite map_app, concat_app. reflexivity. Qed.
Lemma written_cons e a b : written e (a :: b) = op_bytes e a ++ written e b.
Proof. reflexivity. Qed.
Lemma written_flat {A} e (f : A -> list op) l : written e (flat_map f l) = flat_map (fun x => written e (f x)) l.
Proof. induction l as [|x l IH]; cbn [flat_map]; [reflexivity|]. rewrite written_app, IH. reflexivity. Qed.
Lemma write_binary_ok disk host size m l : (size < 2 ^ 63)%N -> (forall a b, disk a b = None) -> visit_n m = Some l ->
  wbinary disk host size m = Saved (binary_bytes (num_triangles m) l).
Proof.
  intros S K Vi. unfold write_stl_binary. rewrite Vi. rewrite (scope_done disk little size S host new_file _ K eq_refl).
  unfold finish. cbn [f_good f_bytes new_file app]. f_equal.
  rewrite !written_cons, written_flat. reflexivity.
Qed.
Lemma put_all_ok disk l : (forall a b, disk a b = None) -> forall f, f_good f = true ->
  put_all disk f l = {| f_bytes := f_bytes f ++ concat l; f_good := true |}.
Proof.
  intros K. induction l as [|t l IH]; intros f G; cbn [put_all fold_left concat].
  - rewrite app_nil_r. destruct f; cbn in *; subst; reflexivity.
  - fold (put_all disk (stream_write disk f t) l). rewrite IH; unfold stream_write; rewrite G, K; [|reflexivity].
    cbn [f_bytes]. rewrite <- app_assoc. reflexivity.
Qed.
Definition facet_text (q : stl_tri * vec D) : text := concat (stl_facet D show6 q).
Definition ascii_text (l : list (stl_tri * vec D)) : text :=
  lit "solid QuESoExport" ++ nl ++ flat_map facet_text l ++ lit "endsolid QuESoExport" ++ nl.
Lemma concat_flat_map {A B} (f : A -> list (list B)) l : concat (flat_map f l) = flat_map (fun x => concat (f x)) l.
Proof. induction l as [|x l IH]; cbn [flat_map]; [reflexivity|]. rewrite concat_app, IH. reflexivity. Qed.
Lemma write_ascii_ok disk m l : (forall a b, disk a b = None) -> visit_n m = Some l -> wascii disk m = Saved (ascii_text l).
Proof.
  intros K Vi. unfold write_stl_ascii. rewrite Vi, put_all_ok by (auto; reflexivity).
  unfold finish, ascii_text. cbn [f_good f_bytes new_file app]. f_equal. cbn [concat]. rewrite concat_app.
  replace (concat (flat_map (stl_facet D show6) l)) with (flat_map facet_text l) by (symmetry; apply concat_flat_map).
  cbn [concat]. rewrite !app_nil_r, <- !app_assoc. reflexivity.
Qed.

Lemma encoding_binary n l : get_encoding (binary_bytes n l) = enc_binary.
Proof.
  unfold get_encoding, binary_bytes, getline. cbn [i_good i_rest new_input].
  change (header ++ bytes_le 4 (N.of_nat n mod 2 ^ 32) ++ flat_map triangle_bytes l) with
    ("B"%char :: (tl header ++ bytes_le 4 (N.of_nat n mod 2 ^ 32) ++ flat_map triangle_bytes l)).
  cbn [split_line]. replace (Ascii.eqb "B" newline) with false by reflexivity.
  destruct (split_line _) as [x [r|]]; reflexivity.
Qed.
Lemma encoding_ascii l : get_encoding (ascii_text l) = enc_ascii.
Proof.
  unfold get_encoding, ascii_text. change nl with [newline]. cbn [app].
  rewrite (getline_nl (lit "solid QuESoExport")) by (cbv; intuition discriminate).
  replace (starts_with (lit "solid") (lit "solid QuESoExport")) with true by reflexivity. cbn [negb].
  assert (K : has_keyword 20 (new_input (flat_map facet_text l ++ lit "endsolid QuESoExport" ++ [newline])) =
    match l with [] => false | _ => true end).
  { destruct l as [|q l]; [reflexivity|]. cbn [flat_map has_keyword]. unfold getline. cbn [i_good i_rest new_input].
    unfold facet_text at 1, stl_facet. rewrite concat_app. cbn [concat]. rewrite app_nil_r, <- !app_assoc.
    match goal with |- context [split_line (lit "facet normal " ++ ?r)] => set (rest := r) end.
    change (lit "facet normal " ++ rest) with (lit "facet normal" ++ (" "%char :: rest)).
    assert (H : exists x r, split_line (lit "facet normal" ++ (" "%char :: rest)) = (lit "facet normal" ++ x, r) /\ x <> []).
    { destruct (split_line rest) as [x r] eqn:E. exists (" "%char :: x), r. split; [|discriminate].
      cbn [lit list_ascii_of_string app split_line]. rewrite E. reflexivity. }
    destruct H as [x [r [-> Hx]]]. destruct r as [r|].
    - rewrite contains_starts by apply starts_with_app. reflexivity.
    - rewrite contains_starts by apply starts_with_app. reflexivity. }
  rewrite K. destruct l as [|q l]; [|reflexivity]. reflexivity.
Qed.

(** ** The map of the vertices *)
Notation rdr := (reader D).
Notation add_point := (add_point D less).
Notation add_facet := (add_facet D less normal).
Definition r_mesh (r : rdr) : mesh (vec D) := fst (fst r).
Definition consistent (r : rdr) : Prop :=
  map fst (snd (fst r)) = m_vertices (r_mesh r) /\ map snd (snd (fst r)) = seq 0 (snd r) /\ snd r = length (m_vertices (r_mesh r)).

Lemma consistent_nth r k i : consistent r -> In (k, i) (snd (fst r)) -> nth_error (m_vertices (r_mesh r)) i = Some k.
Proof.
  intros (A & B & C) I. apply In_nth_error in I as [j J]. assert (E := f_equal (option_map snd) J). rewrite <- nth_error_map, B in E.
  cbn [option_map snd] in E. apply nth_error_seq in E as [_ ->]. rewrite <- A, nth_error_map, J. reflexivity.
Qed.
Definition grows (r r' : rdr) : Prop :=
  m_triangles (r_mesh r') = m_triangles (r_mesh r) /\ m_normals (r_mesh r') = m_normals (r_mesh r) /\
  exists e, m_vertices (r_mesh r') = m_vertices (r_mesh r) ++ e.
Lemma grows_refl r : grows r r.
Proof. repeat split. exists []. rewrite app_nil_r. reflexivity. Qed.
Lemma grows_trans a b c : grows a b -> grows b c -> grows a c.
Proof.
  intros (A & B & [e E]) (A' & B' & [e' E']). split; [congruence|]. split; [congruence|]. exists (e ++ e'). rewrite E', E, app_assoc. reflexivity.
Qed.
Lemma add_point_ok r v r' i k : consistent r -> add_point r v = (r', (i, k)) ->
  consistent r' /\ grows r r' /\ nth_error (m_vertices (r_mesh r')) i = Some k /\
  ((r' = r /\ In k (m_vertices (r_mesh r)) /\ equiv D less k v = true) \/
   (k = v /\ m_vertices (r_mesh r') = m_vertices (r_mesh r) ++ [v] /\ forall w, In w (m_vertices (r_mesh r)) -> equiv D less w v = false)).
Proof.
  intros C. unfold StlModel.add_point. destruct r as [[m im] index]. destruct (find_key D less im v) as [[k' i']|] eqn:F.
  - intros E. injection E as <- <- <-. unfold find_key in F. apply find_some in F as [I Q].
    assert (N := consistent_nth (m, im, index) k' i' C I). split; [exact C|]. split; [apply grows_refl|]. split; [exact N|].
    left. split; [reflexivity|]. split; [apply nth_error_In in N; exact N | exact Q].
  - intros E. injection E as <- <- <-. destruct C as (A & B & C). cbn [r_mesh fst snd] in *. subst index.
    split; [|split; [|split]].
    + unfold consistent. cbn [r_mesh fst snd add_vertex m_vertices]. rewrite !map_app, A, B, app_length. cbn [map fst snd length].
      split; [reflexivity|]. split; [|lia]. rewrite seq_S. reflexivity.
    + split; [reflexivity|]. split; [reflexivity|]. eexists. reflexivity.
    + cbn [r_mesh fst snd add_vertex m_vertices]. rewrite nth_error_app2, Nat.sub_diag by lia. reflexivity.
    + right. split; [reflexivity|]. split; [reflexivity|]. intros w W. rewrite <- A in W. apply in_map_iff in W as [[w' j] [<- I]].
      unfold find_key in F. exact (find_none _ _ F _ I).
Qed.
Lemma nth_grows r r' i k : grows r r' -> nth_error (m_vertices (r_mesh r)) i = Some k -> nth_error (m_vertices (r_mesh r')) i = Some k.
Proof.
  intros (_ & _ & [e E]) H. rewrite E, nth_error_app1; [exact H|]. apply nth_error_Some. congruence.
Qed.
Lemma grows_wf r r' : grows r r' -> well_formed (r_mesh r) -> well_formed (r_mesh r').
Proof.
  intros (A & B & [e E]) [W1 W2]. split; [congruence|]. rewrite A, E, app_length. revert W2. apply Forall_impl.
  intros [[i j] k]. unfold index_ok. lia.
Qed.
Lemma grows_visit r r' l : grows r r' -> well_formed (r_mesh r) -> visit_n (r_mesh r) = Some l -> visit_n (r_mesh r') = Some l.
Proof.
  intros (A & B & [e E]) [_ W]. unfold visit_n, num_triangles. rewrite A, !visit_seq. intros [L F]. split; [exact L|].
  intros i I. rewrite F by exact I. unfold triangle_n, triangle. rewrite A, B, E.
  destruct (nth_error (m_triangles (r_mesh r)) i) as [t|] eqn:T; [|reflexivity]. rewrite corners_app; [reflexivity|].
  rewrite Forall_forall in W. apply W, (nth_error_In _ _ T).
Qed.

(** A triangle with the given vertices is added to a mesh. *)
Lemma visit_add (m : mesh (vec D)) l i j k a b c n : well_formed m -> visit_n m = Some l ->
  nth_error (m_vertices m) i = Some a -> nth_error (m_vertices m) j = Some b -> nth_error (m_vertices m) k = Some c ->
  well_formed (add_triangle m (i, j, k) n) /\ visit_n (add_triangle m (i, j, k) n) = Some (l ++ [(Tri a b c, n)]).
Proof.
  intros W Vi A B C. split.
  - apply add_triangle_wf; [exact W|]. unfold index_ok, num_vertices. rewrite <- !nth_error_Some, A, B, C. repeat split; discriminate.
  - assert (L := proj1 W). unfold visit_n, num_triangles in *. rewrite visit_seq in *. destruct Vi as [Ll F].
    cbn [add_triangle m_triangles]. rewrite !app_length. cbn [length]. split; [lia|]. intros x X.
    unfold triangle_n, triangle. cbn [add_triangle m_triangles m_vertices m_normals].
    destruct (Nat.eq_dec x (length (m_triangles m))) as [->|Nx].
    + rewrite !nth_error_app2 by lia. rewrite Ll, L, Nat.sub_diag. cbn [nth_error corners]. rewrite A, B, C. reflexivity.
    + rewrite !nth_error_app1 by lia. apply F. lia.
Qed.
Definition corner_of (t : stl_tri) (v : vec D) : Prop := v = P1 t \/ v = P2 t \/ v = P3 t.

(** For any comparison. *)
Lemma add_facet_any r t : consistent r -> well_formed (r_mesh r) ->
  consistent (add_facet r t) /\ well_formed (r_mesh (add_facet r t)) /\ num_triangles (r_mesh (add_facet r t)) = S (num_triangles (r_mesh r)).
Proof.
  intros C W. unfold StlModel.add_facet.
  destruct (add_point r (P1 t)) as [r1 [i a]] eqn:E1. destruct (add_point_ok _ _ _ _ _ C E1) as (C1 & G1 & N1 & _).
  destruct (add_point r1 (P2 t)) as [r2 [j b]] eqn:E2. destruct (add_point_ok _ _ _ _ _ C1 E2) as (C2 & G2 & N2 & _).
  destruct (add_point r2 (P3 t)) as [r3 [k c]] eqn:E3. destruct (add_point_ok _ _ _ _ _ C2 E3) as (C3 & G3 & N3 & _).
  assert (G := grows_trans _ _ _ G1 (grows_trans _ _ _ G2 G3)). assert (W3 := grows_wf _ _ G W).
  destruct (visit_n_wf _ W3) as [l Vi]. apply (nth_grows _ _ _ _ (grows_trans _ _ _ G2 G3)) in N1. apply (nth_grows _ _ _ _ G3) in N2.
  destruct G as (T & _ & _). destruct r3 as [[m im] index]. cbn [r_mesh fst snd] in *.
  destruct (visit_add m l i j k a b c (normal (Tri a b c)) W3 Vi N1 N2 N3) as [W4 _].
  split; [exact C3|]. split; [exact W4|]. unfold num_triangles. cbn [add_triangle m_triangles]. rewrite app_length, T. cbn. unfold num_triangles in *. lia.
Qed.

Lemma add_facets_any ts : forall r, consistent r -> well_formed (r_mesh r) ->
  let r' := fold_left add_facet ts r in
  consistent r' /\ well_formed (r_mesh r') /\ num_triangles (r_mesh r') = num_triangles (r_mesh r) + length ts.
Proof.
  induction ts as [|t ts IH]; intros r C W; cbn [fold_left length]; cbv zeta; [split; [exact C|]; split; [exact W | lia]|].
  destruct (add_facet_any r t C W) as (C' & W' & N). destruct (IH _ C' W') as (C2 & W2 & N2).
  split; [exact C2|]. split; [exact W2|]. lia.
Qed.
(** The vertices that are used are equivalent to the ones in the file. *)
Definition near (v k : vec D) : Prop := k = v \/ equiv D less k v = true.
Definition near_tri (t : stl_tri) (q : stl_tri * vec D) : Prop :=
  near (P1 t) (P1 (fst q)) /\ near (P2 t) (P2 (fst q)) /\ near (P3 t) (P3 (fst q)) /\ snd q = normal (fst q).
Lemma add_facet_near r t l : consistent r -> well_formed (r_mesh r) -> visit_n (r_mesh r) = Some l ->
  exists q, visit_n (r_mesh (add_facet r t)) = Some (l ++ [q]) /\ near_tri t q.
Proof.
  intros C W V. unfold StlModel.add_facet.
  assert (Ne : forall r0 v r1 i k, consistent r0 -> add_point r0 v = (r1, (i, k)) -> near v k).
  { intros r0 v r1 i k C0 E. destruct (add_point_ok _ _ _ _ _ C0 E) as (_ & _ & _ & [(_ & _ & Q) | (Q & _)]); [right | left]; exact Q. }
  destruct (add_point r (P1 t)) as [r1 [i a]] eqn:E1. destruct (add_point_ok _ _ _ _ _ C E1) as (C1 & G1 & N1 & _). apply Ne in E1; [|exact C].
  destruct (add_point r1 (P2 t)) as [r2 [j b]] eqn:E2. destruct (add_point_ok _ _ _ _ _ C1 E2) as (C2 & G2 & N2 & _). apply Ne in E2; [|exact C1].
  destruct (add_point r2 (P3 t)) as [r3 [k c]] eqn:E3. destruct (add_point_ok _ _ _ _ _ C2 E3) as (C3 & G3 & N3 & _). apply Ne in E3; [|exact C2].
  assert (G := grows_trans _ _ _ G1 (grows_trans _ _ _ G2 G3)). assert (W3 := grows_wf _ _ G W). assert (V3 := grows_visit _ _ _ G W V).
  apply (nth_grows _ _ _ _ (grows_trans _ _ _ G2 G3)) in N1. apply (nth_grows _ _ _ _ G3) in N2.
  destruct r3 as [[m im] index]. cbn [r_mesh fst snd] in *.
  destruct (visit_add m l i j k a b c (normal (Tri a b c)) W3 V3 N1 N2 N3) as [_ V4]. eexists. split; [exact V4|].
  repeat split; assumption.
Qed.
Lemma add_facets_near ts : forall r l, consistent r -> well_formed (r_mesh r) -> visit_n (r_mesh r) = Some l ->
  exists l', visit_n (r_mesh (fold_left add_facet ts r)) = Some (l ++ l') /\ Forall2 near_tri ts l'.
Proof.
  induction ts as [|t ts IH]; intros r l C W V; cbn [fold_left].
  - exists []. rewrite app_nil_r. split; [exact V | constructor].
  - destruct (add_facet_any r t C W) as (C' & W' & _). destruct (add_facet_near r t l C W V) as [q [V' N]].
    destruct (IH _ _ C' W' V') as [l' [V2 F]]. exists (q :: l'). rewrite V2, <- app_assoc. split; [reflexivity | constructor; assumption].
Qed.
Lemma facets_near ts : exists m l', checked D (fold_left add_facet ts (new_reader D)) = Loaded m /\ well_formed m /\
  visit_n m = Some l' /\ Forall2 near_tri ts l'.
Proof.
  destruct (add_facets_any ts (new_reader D)) as (_ & W & _); [repeat split | exact empty_wf |].
  destruct (add_facets_near ts (new_reader D) []) as [l' [V F]]; [repeat split | exact empty_wf | reflexivity |].
  destruct (fold_left add_facet ts (new_reader D)) as [[m im] index]. cbn [r_mesh fst snd app] in *. exists m, l'.
  unfold checked. rewrite (proj2 (check_iff m) W). auto.
Qed.

(** For points that are identified only if they are equal. *)
Definition separated (S : vec D -> Prop) : Prop := forall a b, S a -> S b -> (equiv D less a b = true <-> a = b).
Definition vertices_in (S : vec D -> Prop) (r : rdr) : Prop := NoDup (m_vertices (r_mesh r)) /\ forall v, In v (m_vertices (r_mesh r)) -> S v.
Lemma NoDup_snoc {A} (l : list A) a : NoDup l -> ~ In a l -> NoDup (l ++ [a]).
Proof.
  intros N I. induction N as [|x l H N IH]; cbn [app]; [constructor; [intros [] | constructor]|].
  constructor.
  - rewrite in_app_iff. cbn. intros [H'|[<-|[]]]; [exact (H H')|]. apply I. left. reflexivity.
  - apply IH. intros H'. apply I. right. exact H'.
Qed.
Lemma add_point_exact S r v r' i k : separated S -> S v -> vertices_in S r -> consistent r -> add_point r v = (r', (i, k)) ->
  k = v /\ vertices_in S r' /\ (forall w, In w (m_vertices (r_mesh r')) <-> In w (m_vertices (r_mesh r)) \/ w = v).
Proof.
  intros Se Sv [N A] C E. destruct (add_point_ok _ _ _ _ _ C E) as (_ & _ & _ & [(-> & I & Q) | (-> & V & Q)]).
  - apply Se in Q; [|auto|exact Sv]. subst. split; [reflexivity|]. split; [split; assumption|]. intros w. intuition congruence.
  - split; [reflexivity|]. split; [split|].
    + rewrite V. apply NoDup_snoc; [exact N|]. intros I. specialize (Q v I). assert (Q' := proj2 (Se v v Sv Sv) eq_refl). congruence.
    + intros w. rewrite V, in_app_iff. cbn. intros [H|[<-|[]]]; auto.
    + intros w. rewrite V, in_app_iff. cbn. intuition congruence.
Qed.
Lemma add_facet_exact S r t l : separated S -> (forall v, corner_of t v -> S v) -> vertices_in S r -> consistent r ->
  well_formed (r_mesh r) -> visit_n (r_mesh r) = Some l ->
  vertices_in S (add_facet r t) /\ visit_n (r_mesh (add_facet r t)) = Some (l ++ [(t, normal t)]) /\
  (forall w, In w (m_vertices (r_mesh (add_facet r t))) <-> In w (m_vertices (r_mesh r)) \/ corner_of t w).
Proof.
  intros Se St Vi C W V. unfold StlModel.add_facet.
  destruct (add_point r (P1 t)) as [r1 [i a]] eqn:E1. destruct (add_point_ok _ _ _ _ _ C E1) as (C1 & G1 & N1 & _).
  destruct (add_point_exact S _ _ _ _ _ Se (St _ (or_introl eq_refl)) Vi C E1) as (-> & Vi1 & I1).
  destruct (add_point r1 (P2 t)) as [r2 [j b]] eqn:E2. destruct (add_point_ok _ _ _ _ _ C1 E2) as (C2 & G2 & N2 & _).
  destruct (add_point_exact S _ _ _ _ _ Se (St _ (or_intror (or_introl eq_refl))) Vi1 C1 E2) as (-> & Vi2 & I2).
  destruct (add_point r2 (P3 t)) as [r3 [k c]] eqn:E3. destruct (add_point_ok _ _ _ _ _ C2 E3) as (C3 & G3 & N3 & _).
  destruct (add_point_exact S _ _ _ _ _ Se (St _ (or_intror (or_intror eq_refl))) Vi2 C2 E3) as (-> & Vi3 & I3).
  assert (G := grows_trans _ _ _ G1 (grows_trans _ _ _ G2 G3)). assert (W3 := grows_wf _ _ G W).
  assert (V3 := grows_visit _ _ _ G W V). apply (nth_grows _ _ _ _ (grows_trans _ _ _ G2 G3)) in N1. apply (nth_grows _ _ _ _ G3) in N2.
  destruct r3 as [[m im] index]. cbn [r_mesh fst snd] in *.
  assert (Et : Tri (P1 t) (P2 t) (P3 t) = t) by (destruct t; reflexivity). rewrite Et.
  destruct (visit_add m l i j k (P1 t) (P2 t) (P3 t) (normal t) W3 V3 N1 N2 N3) as [_ V4]. rewrite Et in V4.
  split; [exact Vi3|]. split; [exact V4|]. intros w. cbn [add_triangle m_vertices]. rewrite I3, I2, I1. unfold corner_of. tauto.
Qed.

Lemma add_facets_exact S ts : separated S -> (forall t v, In t ts -> corner_of t v -> S v) -> forall r l,
  vertices_in S r -> consistent r -> well_formed (r_mesh r) -> visit_n (r_mesh r) = Some l ->
  let r' := fold_left add_facet ts r in
  vertices_in S r' /\ visit_n (r_mesh r') = Some (l ++ map (fun t => (t, normal t)) ts) /\
  (forall w, In w (m_vertices (r_mesh r')) <-> In w (m_vertices (r_mesh r)) \/ exists t, In t ts /\ corner_of t w).
Proof.
  intros Se. induction ts as [|t ts IH]; intros St r l Vi C W V; cbn [fold_left map]; cbv zeta.
  - rewrite app_nil_r. split; [exact Vi|]. split; [exact V|]. intros w. split; [auto|]. intros [H|[t [[] _]]]. exact H.
  - destruct (add_facet_any r t C W) as (C' & W' & _).
    destruct (add_facet_exact S r t l Se (fun v H => St t v (or_introl eq_refl) H) Vi C W V) as (Vi' & V' & I').
    destruct (IH (fun t' v I H => St t' v (or_intror I) H) _ _ Vi' C' W' V') as (Vi2 & V2 & I2).
    split; [exact Vi2|]. split; [rewrite V2, <- app_assoc; reflexivity|].
    intros w. rewrite I2, I'. split.
    + intros [[H|H]|[t' [I H]]]; [auto | right; exists t; cbn; auto | right; exists t'; cbn; auto].
    + intros [H|[t' [[<-|I] H]]]; eauto.
Qed.
Lemma new_consistent : consistent (new_reader D).
Proof. repeat split. Qed.
(** The mesh made of a list of triangles. *)
Definition merged (ts : list stl_tri) (m : mesh (vec D)) : Prop :=
  well_formed m /\ visit_n m = Some (map (fun t => (t, normal t)) ts) /\ NoDup (m_vertices m) /\
  (forall v, In v (m_vertices m) <-> exists t, In t ts /\ corner_of t v).
Lemma facets_merged S ts : separated S -> (forall t v, In t ts -> corner_of t v -> S v) ->
  exists m, checked D (fold_left add_facet ts (new_reader D)) = Loaded m /\ merged ts m.
Proof.
  intros Se St. destruct (add_facets_any ts (new_reader D) new_consistent empty_wf) as (_ & W & _).
  destruct (add_facets_exact S ts Se St (new_reader D) []) as ((N & _) & V & I);
    [split; [constructor | intros v []] | exact new_consistent | exact empty_wf | reflexivity |].
  destruct (fold_left add_facet ts (new_reader D)) as [[m im] index]. cbn [r_mesh fst snd] in *. exists m.
  split.
  - unfold checked. rewrite (proj2 (check_iff m) W). reflexivity.
  - split; [exact W|]. split; [exact V|]. split; [exact N|]. intros v. rewrite I. split; [intros [[]|H]; exact H | auto].
Qed.

(** ** Binary files *)
Notation round := (fun d => of_float (to_float d)).
Definition round_vec (v : vec D) : vec D := Vec (round (vx v)) (round (vy v)) (round (vz v)).
Definition round_tri (t : stl_tri) : stl_tri := Tri (round_vec (P1 t)) (round_vec (P2 t)) (round_vec (P3 t)).
Notation read_vec := (read_vec D of_float).
Notation read_triangle := (read_triangle D of_float).
Notation read_triangles := (read_triangles D of_float less normal).

Lemma firstn_app_exact {A} (l1 l2 : list A) n : length l1 = n -> firstn n (l1 ++ l2) = l1.
Proof. intros <-. rewrite firstn_app, Nat.sub_diag, firstn_all, firstn_O, app_nil_r. reflexivity. Qed.
Lemma skipn_app_exact {A} (l1 l2 : list A) n : length l1 = n -> skipn n (l1 ++ l2) = l2.
Proof. intros <-. rewrite skipn_app, skipn_all, Nat.sub_diag. reflexivity. Qed.
Lemma skipn_plus {A} a : forall b (l : list A), skipn (a + b) l = skipn b (skipn a l).
Proof. induction a as [|a IH]; intros b l; [reflexivity|]. destruct l as [|x l]; cbn [plus skipn]; [rewrite skipn_nil; reflexivity | apply IH]. Qed.
Definition vec_bytes (v : vec D) : bytes := bytes_le 4 (to_float (vx v)) ++ bytes_le 4 (to_float (vy v)) ++ bytes_le 4 (to_float (vz v)).
Lemma vec_bytes_length v : length (vec_bytes v) = 12.
Proof. unfold vec_bytes. rewrite !app_length, !bytes_le_length. reflexivity. Qed.
Lemma read_vec_ok v b : (forall d, (to_float d < 2 ^ 32)%N) -> read_vec little (vec_bytes v ++ b) = Some (round_vec v, b).
Proof.
  intros R. unfold StlModel.read_vec. rewrite read_app by apply vec_bytes_length.
  assert (L := bytes_le_length 4). unfold vec_bytes, round_vec, from_memory. change (4 * 0) with 0. change (4 * 1) with 4. change (4 * 2) with (4 + 4).
  rewrite skipn_O, (skipn_plus 4 4), !(skipn_app_exact _ _ 4 (L _)), !(firstn_app_exact _ _ 4 (L _)), (firstn_all2 (n := 4)) by (rewrite L; lia).
  rewrite !value_bytes_le by apply R. reflexivity.
Qed.
Lemma triangle_bytes_eq q : triangle_bytes q = vec_bytes (snd q) ++ vec_bytes (P1 (fst q)) ++ vec_bytes (P2 (fst q)) ++ vec_bytes (P3 (fst q)) ++ bytes_le 2 0.
Proof.
  unfold triangle_bytes, stl_triangle_ops, written, vec_bytes. cbn [map op_bytes concat vec_floats app ordered in_memory].
  rewrite ?app_nil_r, <- ?app_assoc. reflexivity.
Qed.
Lemma read_triangle_ok q b : (forall d, (to_float d < 2 ^ 32)%N) -> read_triangle little (triangle_bytes q ++ b) = Some (round_tri (fst q), b).
Proof.
  intros R. rewrite triangle_bytes_eq, <- !app_assoc. unfold StlModel.read_triangle.
  rewrite read_app by apply vec_bytes_length. rewrite !read_vec_ok by exact R. rewrite read_app by apply bytes_le_length. reflexivity.
Qed.
Lemma read_triangles_ok l : (forall d, (to_float d < 2 ^ 32)%N) -> forall r b,
  read_triangles little (length l) (flat_map triangle_bytes l ++ b) r = Some (fold_left add_facet (map (fun q => round_tri (fst q)) l) r).
Proof.
  intros R. induction l as [|q l IH]; intros r b; cbn [length flat_map StlModel.read_triangles map fold_left]; [reflexivity|].
  rewrite <- app_assoc, read_triangle_ok by exact R. apply IH.
Qed.
Lemma read_binary_ok l b : (forall d, (to_float d < 2 ^ 32)%N) -> (N.of_nat (length l) < 2 ^ 32)%N ->
  read_stl_binary D of_float less normal little (binary_bytes (length l) l ++ b) =
  checked D (fold_left add_facet (map (fun q => round_tri (fst q)) l) (new_reader D)).
Proof.
  intros R L. unfold read_stl_binary, binary_bytes. rewrite <- !app_assoc, read_app by reflexivity.
  rewrite read_app by apply bytes_le_length. unfold from_memory. rewrite value_bytes_le by (apply N.mod_lt; discriminate).
  rewrite N.mod_small, Nat2N.id by exact L. rewrite read_triangles_ok by exact R. reflexivity.
Qed.

(** Whatever the bytes are. *)
Lemma read_triangles_any host n : forall b r, match read_triangles host n b r with
  | Some r' => exists ts, length ts = n /\ r' = fold_left add_facet ts r | None => length b < 50 * n end.
Proof.
  induction n as [|n IH]; intros b r; cbn [StlModel.read_triangles]; [exists []; split; reflexivity|].
  unfold StlModel.read_triangle, StlModel.read_vec.
  assert (Sh : forall k x, read k x = None -> length x < k).
  { intros k x. unfold read. destruct (Nat.leb_spec k (length x)); [discriminate | auto]. }
  destruct (read 12 b) as [[c0 b0]|] eqn:E0; [|apply Sh in E0; lia]. apply read_some in E0 as [-> E0].
  destruct (read 12 b0) as [[c1 b1]|] eqn:E1; [|apply Sh in E1; rewrite !app_length; lia]. apply read_some in E1 as [-> E1].
  destruct (read 12 b1) as [[c2 b2]|] eqn:E2; [|apply Sh in E2; rewrite !app_length; lia]. apply read_some in E2 as [-> E2].
  destruct (read 12 b2) as [[c3 b3]|] eqn:E3; [|apply Sh in E3; rewrite !app_length; lia]. apply read_some in E3 as [-> E3].
  destruct (read 2 b3) as [[c4 b4]|] eqn:E4; [|apply Sh in E4; rewrite !app_length; lia]. apply read_some in E4 as [-> E4].
  match goal with |- context [add_facet r ?t] => set (tt := t) end. specialize (IH b4 (add_facet r tt)).
  destruct (read_triangles host n b4 (add_facet r tt)) as [r'|].
  - destruct IH as [ts [L ->]]. exists (tt :: ts). split; [cbn; lia | reflexivity].
  - rewrite !app_length. lia.
Qed.
Lemma read_binary_any host b : match read_stl_binary D of_float less normal host b with
  | Loaded m => well_formed m /\ N.of_nat (num_triangles m) = from_memory host (firstn 4 (skipn 80 b)) /\ 84 + 50 * num_triangles m <= length b
  | LoadError => (N.of_nat (length b) < 84 + 50 * from_memory host (firstn 4 (skipn 80 b)))%N
  | _ => False
  end.
Proof.
  unfold read_stl_binary.
  assert (Sh : forall k x, read k x = None -> length x < k).
  { intros k x. unfold read. destruct (Nat.leb_spec k (length x)); [discriminate | auto]. }
  destruct (read 80 b) as [[c0 b0]|] eqn:E0; [|apply Sh in E0; lia]. apply read_some in E0 as [-> E0].
  rewrite (skipn_app_exact _ _ 80 E0). destruct (read 4 b0) as [[c1 b1]|] eqn:E1; [|apply Sh in E1; rewrite app_length; lia].
  apply read_some in E1 as [-> E1]. rewrite (firstn_app_exact _ _ 4 E1). set (n := from_memory host c1). rewrite !app_length, E0, E1.
  assert (A := read_triangles_any host (N.to_nat n) b1 (new_reader D)).
  destruct (read_triangles host (N.to_nat n) b1 (new_reader D)) as [r'|] eqn:R; [|lia].
  destruct A as [ts [L ->]]. destruct (add_facets_any ts (new_reader D) new_consistent empty_wf) as (_ & W & N).
  assert (B : 50 * N.to_nat n <= length b1).
  { clear - R. revert b1 R. generalize (fold_left add_facet ts (new_reader D)) as r'. generalize (new_reader D) as r. clearbody n.
    induction (N.to_nat n) as [|k IH]; intros r r' b1 R; [lia|]. cbn [StlModel.read_triangles] in R.
    destruct (read_triangle host b1) as [[t b2]|] eqn:T; [|discriminate]. apply IH in R.
    unfold StlModel.read_triangle, StlModel.read_vec in T.
    destruct (read 12 b1) as [[d0 e0]|] eqn:F0; [|discriminate]. apply read_some in F0 as [-> F0].
    destruct (read 12 e0) as [[d1 e1]|] eqn:F1; [|discriminate]. apply read_some in F1 as [-> F1].
    destruct (read 12 e1) as [[d2 e2]|] eqn:F2; [|discriminate]. apply read_some in F2 as [-> F2].
    destruct (read 12 e2) as [[d3 e3]|] eqn:F3; [|discriminate]. apply read_some in F3 as [-> F3].
    destruct (read 2 e3) as [[d4 e4]|] eqn:F4; [|discriminate]. apply read_some in F4 as [-> F4].
    injection T as _ <-. rewrite !app_length. lia. }
  destruct (fold_left add_facet ts (new_reader D)) as [[m im] index]. cbn [r_mesh fst snd] in *.
  change (num_triangles (r_mesh (new_reader D))) with 0 in N.
  unfold checked. rewrite (proj2 (check_iff m) W). split; [exact W|]. split; [rewrite N; cbn [plus]; rewrite L; apply N2Nat.id|].
  rewrite N. lia.
Qed.

End Stl.
