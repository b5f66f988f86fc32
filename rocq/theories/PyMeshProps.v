(** C74: triangle meshes in Python. *)
From Coq Require Import Arith Lia List Bool.
From Verif Require Import MeshModel MeshProofs PyMeshModel PyMeshProofs.
Import ListNotations.

(** ** Specification: what a program has added, and how far an iterator is. *)
Fixpoint added_vertices {V} (l : list (statement V)) : list V :=
  match l with [] => [] | DropMesh :: _ => [] | AddVertex v :: l => v :: added_vertices l | _ :: l => added_vertices l end.
Fixpoint added_triangles {V} (l : list (statement V)) : list itri :=
  match l with [] => [] | DropMesh :: _ => [] | AddTriangle t :: l => t :: added_triangles l | _ :: l => added_triangles l end.
(** The number of values that the iterator k has given. *)
Definition gave {V} (r : outcome V) : bool := match r with Point _ | Taken _ => true | _ => false end.
Fixpoint given {V} (k : nat) (l : list (statement V)) (rs : list (outcome V)) : nat :=
  match l, rs with
  | Next i :: l, r :: rs => if (i =? k) && gave r then S (given k l rs) else given k l rs
  | _ :: l, _ :: rs => given k l rs
  | _, _ => 0
  end.
Definition in_range (n : nat) (t : itri) : Prop := let '(i, j, k) := t in i < n /\ j < n /\ k < n.

Section Props.
Context {V : Type}.
Variable normal : tri V -> V.
Variables grow room : nat -> nat.
Notation do_statement := (do_statement normal grow room).
Notation execute := (execute normal grow room).
Implicit Types s : pm V.

Lemma do_named s c : pm_named (fst (do_statement s c)) = pm_named s && match c with DropMesh => false | _ => true end.
Proof.
  destruct s as [named vs ts ns its taken]. destruct c; cbn [PyMeshModel.do_statement pm_named]; try (destruct named; reflexivity).
  - destruct named; [|reflexivity]. destruct (corners (v_items vs) t); reflexivity.
  - destruct (nth_error its k) as [[c|]|]; try (destruct named; reflexivity). unfold next. destruct (c_triangles c); (destruct (_ <=? _); [destruct named; reflexivity|]).
    + destruct (nth_error (v_items ts) (c_index c)); [|destruct named; reflexivity]. destruct (triangle_n _ _); destruct named; reflexivity. + destruct (nth_error (v_items vs) (c_index c)); destruct named; reflexivity.
Qed.
Lemma named_end l : forall s s' rs, execute l s = Some (s', rs) -> (pm_named s' = true <-> pm_named s = true /\ ~ In DropMesh l).
Proof.
  induction l as [|c l IH]; intros s s' rs E. { injection E as <- _. tauto. }
  apply execute_cons in E. destruct E as (s1 & r & rs' & S & _ & E & _). rewrite (IH _ _ _ E). pose proof (do_named s c) as N. rewrite S in N. cbn in N. rewrite N, andb_true_iff. cbn [In].
  assert (K : match c with DropMesh => false | _ => true end = true <-> c <> DropMesh) by (destruct c; split; try discriminate; try reflexivity; intros H; contradiction). rewrite K. intuition congruence.
Qed.
Lemma do_items s c r s' : do_statement s c = (s', r) -> r <> Undefined ->
  v_items (pm_vertices s') = v_items (pm_vertices s) ++ (if pm_named s then match c with AddVertex v => [v] | _ => [] end else []) /\
  v_items (pm_triangles s') = v_items (pm_triangles s) ++ (if pm_named s then match c with AddTriangle t => [t] | _ => [] end else []).
Proof.
  intros S N. destruct s as [named vs ts ns its taken]. destruct c; cbn [PyMeshModel.do_statement] in S; cbn [pm_vertices pm_triangles pm_named];
    try (injection S as <- _; destruct named; rewrite !app_nil_r; split; reflexivity);
    try (destruct named; injection S as <- _; cbn [pm_vertices pm_triangles]; rewrite ?push_items, ?reserve_items, !app_nil_r; split; reflexivity).
  - destruct named; [|injection S as <- _; rewrite !app_nil_r; split; reflexivity]. destruct (corners (v_items vs) t); injection S as <- <-; [|contradiction]. cbn. rewrite push_items, app_nil_r. split; reflexivity.
  - assert (K : v_items (pm_vertices s') = v_items vs /\ v_items (pm_triangles s') = v_items ts).
    { destruct (nth_error its k) as [[c|]|]; try (injection S as <- _; split; reflexivity). unfold next in S. destruct (c_triangles c); (destruct (_ <=? _); [injection S as <- _; split; reflexivity|]).
      + destruct (nth_error (v_items ts) (c_index c)); [|injection S as <- _; split; reflexivity]. destruct (triangle_n _ _); injection S as <- _; split; reflexivity. + destruct (nth_error (v_items vs) (c_index c)); injection S as <- _; split; reflexivity. }
    destruct K as [-> ->]. destruct named; rewrite !app_nil_r; split; reflexivity.
Qed.
Lemma execute_items l : forall s s' rs, execute l s = Some (s', rs) ->
  v_items (pm_vertices s') = v_items (pm_vertices s) ++ (if pm_named s then added_vertices l else []) /\ v_items (pm_triangles s') = v_items (pm_triangles s) ++ (if pm_named s then added_triangles l else []).
Proof.
  induction l as [|c l IH]; intros s s' rs E. { injection E as <- _. cbn. destruct (pm_named s); rewrite !app_nil_r; split; reflexivity. }
  apply execute_cons in E. destruct E as (s1 & r & rs' & S & N & E & _). destruct (do_items _ _ _ _ S N) as [A B]. destruct (IH _ _ _ E) as [A' B']. rewrite A', B', A, B. pose proof (do_named s c) as M. rewrite S in M. cbn in M. rewrite M, <- !app_assoc.
  destruct (pm_named s); [|split; reflexivity]. destruct c; split; reflexivity.
Qed.
Lemma corners_range (vs : list V) t : corners vs t <> None <-> in_range (length vs) t.
Proof.
  destruct t as [[i j] k]. cbn. rewrite <- !nth_error_Some. destruct (nth_error vs i), (nth_error vs j), (nth_error vs k); intuition congruence.
Qed.

(** Building: the mesh consists of exactly what was added, in this order; it is well formed and every triangle has the normal of its corners.
    AddVertex returns the index of the vertex. AddTriangle is undefined exactly if an index is too large: it is not checked. *)
Theorem C74_build : forall l s rs, execute l new_mesh = Some (s, rs) ->
  m_vertices (contents s) = added_vertices l /\ m_triangles (contents s) = added_triangles l /\ well_formed (contents s) /\
  Forall2 (fun t n => exists p, corners (added_vertices l) t = Some p /\ n = normal p) (added_triangles l) (m_normals (contents s)) /\
  (~ In DropMesh l ->
   (forall v, snd (do_statement s (AddVertex v)) = Number (length (added_vertices l))) /\
   snd (do_statement s CountVertices) = Number (length (added_vertices l)) /\ snd (do_statement s CountTriangles) = Number (length (added_triangles l)) /\
   (forall t, snd (do_statement s (AddTriangle t)) = Undefined <-> ~ in_range (length (added_vertices l)) t)).
Proof.
  intros l s rs E. destruct (execute_items _ _ _ _ E) as [A B]. cbn in A, B. pose proof (execute_ok _ _ _ _ _ _ _ E (new_ok normal)) as K. cbn [contents m_vertices m_triangles m_normals]. rewrite <- A, <- B.
  split; [reflexivity|]. split; [reflexivity|]. split; [apply (ok_well_formed _ _ K)|]. split; [exact (proj1 K)|]. intros N. assert (M : pm_named s = true) by (apply (named_end _ _ _ _ E); split; [reflexivity|exact N]).
  destruct s as [named vs ts ns its taken]. cbn in M |- *. rewrite M. split; [reflexivity|]. split; [reflexivity|]. split; [reflexivity|]. intros t. rewrite <- corners_range. destruct (corners (v_items vs) t); cbn [snd]; split; intros H; try discriminate; try reflexivity.
  - exfalso. apply H. discriminate. - intros C. contradiction.
Qed.

(** Nothing else can be undefined, but the use of triangles that were taken. *)
Theorem C74_undefined : forall l s rs c, execute l new_mesh = Some (s, rs) -> snd (do_statement s c) = Undefined ->
  match c with AddTriangle t => ~ in_range (length (added_vertices l)) t | ReadPoints _ | ReadNormal _ => True | _ => False end.
Proof.
  intros l s rs c E U. pose proof (execute_ok _ _ _ _ _ _ _ E (new_ok normal)) as K. pose proof (ok_well_formed _ _ K) as W. destruct (execute_items _ _ _ _ E) as [A _]. cbn in A. rewrite <- A.
  destruct s as [named vs ts ns its taken]. destruct c; cbn [PyMeshModel.do_statement snd] in U; try (destruct named; discriminate U); try discriminate U; try exact I.
  - rewrite <- corners_range. cbn. destruct named; [|discriminate U]. destruct (corners (v_items vs) t); [discriminate U|]. intros H. apply H. reflexivity.
  - destruct (nth_error its k) as [[c|]|]; try discriminate U. unfold next in U. destruct (c_triangles c).
    + destruct (length (v_items ts) <=? c_index c) eqn:L; [discriminate U|]. apply Nat.leb_gt in L. pose proof (triangle_n_ok _ (c_index c) W L) as T. destruct (triangle_n _ _); [|contradiction]. destruct (nth_error (v_items ts) (c_index c)) eqn:N; [discriminate U|]. apply nth_error_None in N. lia.
    + destruct (length (v_items vs) <=? c_index c) eqn:L; [discriminate U|]. apply Nat.leb_gt in L. destruct (nth_error (v_items vs) (c_index c)) eqn:N; [discriminate U|]. apply nth_error_None in N. lia.
Qed.

(** ** Iterators. *)
Lemma do_iterator s c s' r k b i : do_statement s c = (s', r) -> r <> Undefined -> nth_error (pm_iterators s) k = Some (Some (Cursor b i)) -> c <> DropIterator k ->
  nth_error (pm_iterators s') k = Some (Some (Cursor b (i + given k [c] [r]))).
Proof.
  intros S U N D.
  assert (L : k < length (pm_iterators s)) by (apply nth_error_Some; congruence). destruct s as [named vs ts ns its taken]. cbn [pm_iterators] in *.
  destruct c; cbn [PyMeshModel.do_statement] in S; cbn [given]; rewrite ?Nat.add_0_r; try (injection S as <- _; exact N); try (destruct named; injection S as <- _; exact N);
    try (destruct named; injection S as <- _; cbn [pm_iterators]; [rewrite nth_error_app1 by exact L|]; exact N).
  - destruct named; [|injection S as <- _; exact N]. destruct (corners (v_items vs) t); injection S as <- _; exact N.
  - destruct (Nat.eqb_spec k0 k) as [->|Nk]; cbn [andb].
    + rewrite N in S. unfold next in S. cbn [c_triangles c_index] in S. assert (Q : i + 1 = Datatypes.S i) by lia. assert (P : forall x, nth_error (put its k x) k = Some x) by (intros x; rewrite nth_put, Nat.eqb_refl; cbn [andb]; apply Nat.ltb_lt in L; rewrite L; reflexivity). destruct b.
      * destruct (length (v_items ts) <=? i); [injection S as <- <-; cbn; rewrite Nat.add_0_r; exact N|]. destruct (nth_error (v_items ts) i); [|injection S as _ <-; contradiction]. destruct (triangle_n _ _); injection S as <- <-; [|contradiction]. cbn [gave pm_iterators]. rewrite Q. apply P.
      * destruct (length (v_items vs) <=? i); [injection S as <- <-; cbn; rewrite Nat.add_0_r; exact N|]. destruct (nth_error (v_items vs) i); injection S as <- <-; [|contradiction]. cbn [gave pm_iterators]. rewrite Q. apply P.
    + rewrite Nat.add_0_r. assert (P : forall x, nth_error (put its k0 x) k = nth_error its k) by (intros x; rewrite nth_put; destruct (Nat.eqb_spec k k0); [congruence|reflexivity]).
      destruct (nth_error its k0) as [[c|]|]; try (injection S as <- _; exact N). unfold next in S. destruct (c_triangles c); (destruct (_ <=? _); [injection S as <- _; exact N|]).
      * destruct (nth_error (v_items ts) (c_index c)); [|injection S as <- _; exact N]. destruct (triangle_n _ _); injection S as <- _; [|exact N]. cbn [pm_iterators]. rewrite P. exact N.
      * destruct (nth_error (v_items vs) (c_index c)); injection S as <- _; [|exact N]. cbn [pm_iterators]. rewrite P. exact N.
  - injection S as <- _. cbn [pm_iterators]. rewrite nth_put. destruct (Nat.eqb_spec k k0); [exfalso; apply D; congruence|]. exact N.
Qed.
Lemma given_cons (k : nat) (c : statement V) l r rs : given k (c :: l) (r :: rs) = given k [c] [r] + given k l rs.
Proof. destruct c; cbn [given]; try reflexivity. destruct ((_ =? _) && gave r); reflexivity. Qed.
Lemma execute_iterator l : forall s s' rs k b i, execute l s = Some (s', rs) -> nth_error (pm_iterators s) k = Some (Some (Cursor b i)) -> ~ In (DropIterator k) l ->
  nth_error (pm_iterators s') k = Some (Some (Cursor b (i + given k l rs))).
Proof.
  induction l as [|c l IH]; intros s s' rs k b i E N D. { injection E as <- <-. cbn [given]. rewrite Nat.add_0_r. exact N. }
  apply execute_cons in E. destruct E as (s1 & r & rs' & S & U & E & ->). rewrite given_cons, Nat.add_assoc. apply (IH s1); [exact E| |intros I; apply D; right; exact I]. apply (do_iterator _ _ _ _ _ _ _ S U N). intros ->. apply D. left. reflexivity.
Qed.
Lemma app_parts {A} (a b x y : list A) : length a = length b -> a ++ x = b ++ y -> a = b /\ x = y.
Proof. revert b. induction a as [|u a IH]; intros [|v b] L E; try discriminate L; [split; [reflexivity|exact E]|]. injection E as -> E. injection L as L. destruct (IH b L E) as [-> ->]. split; reflexivity. Qed.
(** The state after the call that makes an iterator and further statements. *)
Lemma made a b c s ra rb k : (c = Vertices \/ c = Triangles) -> execute (a ++ c :: b) new_mesh = Some (s, ra ++ Handle k :: rb) -> length ra = length a -> ~ In (DropIterator k) b ->
  nth_error (pm_iterators s) k = Some (Some (Cursor (match c with Triangles => true | _ => false end) (given k b rb))).
Proof.
  intros C E L D. rewrite execute_app in E. destruct (execute a new_mesh) as [[s1 r1]|] eqn:Ea; [|discriminate E]. destruct (execute (c :: b) s1) as [[s2 r2]|] eqn:Eb; [|discriminate E]. injection E as <- E. pose proof (execute_length _ _ _ _ _ _ _ Ea) as La.
  destruct (app_parts r1 ra r2 (Handle k :: rb)) as [-> ->]; [congruence|exact E|].
  apply execute_cons in Eb. destruct Eb as (s3 & r & rs' & S & _ & E' & R). injection R as <- <-. apply (execute_iterator _ _ _ _ _ _ 0 E'); [|exact D].
  destruct s1 as [named vs ts ns its taken]. destruct C as [-> | ->]; cbn [PyMeshModel.do_statement] in S; (destruct named; [|discriminate S]); injection S as <- <-; cbn [pm_iterators]; rewrite nth_error_app2, Nat.sub_diag by lia; reflexivity.
Qed.

(** An iterator over the vertices gives the vertices one after the other, also those that were added after the iterator was made. *)
Theorem C74_vertices : forall a b s ra rb k, execute (a ++ Vertices :: b) new_mesh = Some (s, ra ++ Handle k :: rb) -> length ra = length a -> ~ In (DropIterator k) b ->
  snd (do_statement s (Next k)) = match nth_error (added_vertices (a ++ Vertices :: b)) (given k b rb) with Some v => Point v | None => Exhausted end.
Proof.
  intros a b s ra rb k E L D. pose proof (made a b _ s ra rb k (or_introl eq_refl) E L D) as N. destruct (execute_items _ _ _ _ E) as [A _]. cbn [pm_named new_mesh pm_vertices v_items app] in A. rewrite <- A.
  destruct s as [named vs ts ns its taken]. cbn [PyMeshModel.do_statement pm_iterators pm_vertices] in *. rewrite N. unfold next. cbn [c_triangles c_index]. destruct (_ <=? _) eqn:Q.
  - apply Nat.leb_le, nth_error_None in Q. rewrite Q. reflexivity. - apply Nat.leb_gt in Q. destruct (nth_error (v_items vs) (given k b rb)) eqn:X; [reflexivity|]. apply nth_error_None in X. lia.
Qed.
(** An iterator over the triangles gives the triangles one after the other; each can be read and has the corners and the normal that were added. *)
Theorem C74_triangles : forall a b s ra rb k, execute (a ++ Triangles :: b) new_mesh = Some (s, ra ++ Handle k :: rb) -> length ra = length a -> ~ In (DropIterator k) b ->
  match nth_error (added_triangles (a ++ Triangles :: b)) (given k b rb) with
  | None => snd (do_statement s (Next k)) = Exhausted
  | Some t => exists j s' p, do_statement s (Next k) = (s', Taken j) /\ corners (added_vertices (a ++ Triangles :: b)) t = Some p /\
      snd (do_statement s' (ReadPoints j)) = Corners p /\ snd (do_statement s' (ReadNormal j)) = Normal (normal p)
  end.
Proof.
  intros a b s ra rb k E L D. pose proof (made a b _ s ra rb k (or_intror eq_refl) E L D) as N. destruct (execute_items _ _ _ _ E) as [A B]. cbn [pm_named new_mesh pm_vertices pm_triangles v_items app] in A, B. rewrite <- A, <- B.
  pose proof (execute_ok _ _ _ _ _ _ _ E (new_ok normal)) as K. pose proof (ok_well_formed _ _ K) as W. destruct K as (T & _).
  destruct s as [named vs ts ns its taken]. cbn [PyMeshModel.do_statement pm_iterators pm_vertices pm_triangles pm_normals] in *. rewrite N. unfold next. cbn [c_triangles c_index]. set (i := given k b rb) in *. destruct (nth_error (v_items ts) i) as [t|] eqn:X.
  - assert (Li : i < length (v_items ts)) by (apply nth_error_Some; congruence). destruct (length (v_items ts) <=? i) eqn:Q; [apply Nat.leb_le in Q; lia|]. pose proof (triangle_n_ok _ i W Li) as Y. destruct (triangle_n _ _) as [y|]; [|contradiction].
    destruct (nth_F2 _ _ _ T _ _ X) as (n & Nn & p & C & ->). eexists (length taken), _, p. split; [reflexivity|]. split; [exact C|].
    assert (Al : forall tk, mesh_alive (Pm named vs ts ns (put its k (Some (Cursor true (S i)))) tk) = true).
    { intros tk. unfold mesh_alive. cbn [pm_named pm_iterators]. apply orb_true_iff. right. apply existsb_exists. exists (Some (Cursor true (S i))). split; [|reflexivity]. apply nth_error_In with k. rewrite nth_put, Nat.eqb_refl. cbn [andb]. replace (k <? length its) with true; [reflexivity|]. symmetry. apply Nat.ltb_lt, nth_error_Some. congruence. }
    cbn [PyMeshModel.do_statement]. rewrite nth_error_app2, Nat.sub_diag by lia. cbn [nth_error x_block x_nblock x_corners x_normal snd]. rewrite Al, !Nat.eqb_refl, C, Nn. split; reflexivity.
  - apply nth_error_None in X. apply Nat.leb_le in X. rewrite X. reflexivity.
Qed.

(** A for loop over a mesh that is not changed: every vertex once, in order, and then it ends. *)
Theorem C74_loop : forall l s rs, execute l new_mesh = Some (s, rs) -> ~ In DropMesh l -> exists k s',
  execute (Vertices :: repeat (Next k) (S (length (added_vertices l)))) s = Some (s', Handle k :: map Point (added_vertices l) ++ [Exhausted]).
Proof.
  intros l s rs E N. destruct (execute_items _ _ _ _ E) as [A _]. cbn [pm_named new_mesh pm_vertices v_items app] in A. rewrite <- A. assert (M : pm_named s = true) by (apply (named_end _ _ _ _ E); split; [reflexivity|exact N]).
  destruct s as [named vs ts ns its taken]. cbn [pm_named pm_vertices] in *. subst named. exists (length its).
  assert (K : forall n i its', n + i = length (v_items vs) -> nth_error its' (length its) = Some (Some (Cursor false i)) -> exists s',
    execute (repeat (Next (length its)) (S n)) (Pm true vs ts ns its' taken) = Some (s', map Point (skipn i (v_items vs)) ++ [Exhausted])).
  { induction n as [|n IH]; intros i its' Q I; cbn [repeat PyMeshModel.execute PyMeshModel.do_statement]; rewrite I; unfold next; cbn [c_triangles c_index].
    - assert (L : length (v_items vs) <=? i = true) by (apply Nat.leb_le; lia). rewrite L. rewrite skipn_all2 by lia. eexists. reflexivity.
    - assert (L : length (v_items vs) <=? i = false) by (apply Nat.leb_gt; lia). rewrite L. destruct (nth_error (v_items vs) i) as [v|] eqn:X; [|apply nth_error_None in X; lia].
      assert (I' : nth_error (put its' (length its) (Some (Cursor false (S i)))) (length its) = Some (Some (Cursor false (S i)))) by (rewrite nth_put, Nat.eqb_refl; cbn [andb]; replace (length its <? length its') with true; [reflexivity|symmetry; apply Nat.ltb_lt, nth_error_Some; congruence]).
      destruct (IH (S i) _ ltac:(lia) I') as [s' R]. exists s'. cbn [repeat PyMeshModel.execute] in R. rewrite R. replace (skipn i (v_items vs)) with (v :: skipn (S i) (v_items vs)); [reflexivity|]. revert X. clear. revert i. induction (v_items vs) as [|y r IHr]; intros [|i] X; try discriminate X; cbn in *; [injection X as <-; reflexivity|]. apply IHr, X. }
  destruct (K (length (v_items vs)) 0 (its ++ [Some (Cursor false 0)]) (Nat.add_0_r _)) as [s' R]. { rewrite nth_error_app2, Nat.sub_diag by lia. reflexivity. }
  exists s'. cbn [PyMeshModel.execute PyMeshModel.do_statement]. cbn [PyMeshModel.execute] in R. rewrite R. reflexivity.
Qed.

(** ** Triangles that are kept. *)
Lemma read_points s j : ok normal s -> forall x, nth_error (pm_taken s) j = Some x -> exists p, corners (v_items (pm_vertices s)) (x_corners x) = Some p /\ nth_error (v_items (pm_normals s)) (x_normal x) = Some (normal p) /\
  snd (do_statement s (ReadPoints j)) = (if mesh_alive s && (x_block x =? v_block (pm_vertices s)) then Corners p else Undefined) /\
  snd (do_statement s (ReadNormal j)) = (if mesh_alive s && (x_nblock x =? v_block (pm_normals s)) then Normal (normal p) else Undefined).
Proof.
  intros (T & X & _) x E. pose proof (proj1 (Forall_forall _ _) X x (nth_error_In _ _ E)) as (G & _). destruct (nth_F2 _ _ _ T _ _ G) as (n & Nn & p & C & ->). exists p. split; [exact C|]. split; [exact Nn|].
  destruct s as [named vs ts ns its taken]. cbn [PyMeshModel.do_statement pm_vertices pm_normals pm_taken snd] in *. rewrite E, C, Nn. split; reflexivity.
Qed.
(** Something refers to the mesh: its name, or an iterator. *)
Definition referred (l : list (statement V)) s (q : list (statement V)) : Prop :=
  ~ In DropMesh (l ++ q) \/ exists k, snd (do_statement s (Next k)) <> Raises /\ ~ In (DropIterator k) q.
Lemma referred_alive l s rs q s2 rq : execute l new_mesh = Some (s, rs) -> execute q s = Some (s2, rq) -> referred l s q -> mesh_alive s2 = true.
Proof.
  intros E Q R. unfold mesh_alive. apply orb_true_iff. destruct R as [N | (k & N & D)].
  - left. apply (named_end _ _ _ _ Q). split; [apply (named_end _ _ _ _ E); split; [reflexivity|]|]; intros I; apply N, in_or_app; [left|right]; exact I.
  - right. destruct (nth_error (pm_iterators s) k) as [[[b i]|]|] eqn:I; [|exfalso; apply N; destruct s; cbn in *; rewrite I; reflexivity|exfalso; apply N; destruct s; cbn in *; rewrite I; reflexivity].
    pose proof (execute_iterator _ _ _ _ _ _ _ Q I D) as I2. apply existsb_exists. exists (Some (Cursor b (i + given k q rq))). split; [apply (nth_error_In _ _ I2)|reflexivity].
Qed.
Lemma taken_later s s' j x : further s s' -> nth_error (pm_taken s) j = Some x -> nth_error (pm_taken s') j = Some x.
Proof. intros (_ & _ & _ & e & E) N. rewrite E, nth_error_app1; [exact N|]. apply nth_error_Some. congruence. Qed.
Lemma corners_later s s' (x : proxy) p : further s s' -> corners (v_items (pm_vertices s)) (x_corners x) = Some p -> corners (v_items (pm_vertices s')) (x_corners x) = Some p.
Proof. intros (([e E] & _) & _) C. rewrite E. apply corners_app, C. Qed.
Lemma kept_core l s rs q s2 rq j p : execute l new_mesh = Some (s, rs) -> execute q s = Some (s2, rq) ->
  (snd (do_statement s (ReadPoints j)) = Corners p -> snd (do_statement s2 (ReadPoints j)) = if mesh_alive s2 && (v_block (pm_vertices s) =? v_block (pm_vertices s2)) then Corners p else Undefined) /\
  (forall n, snd (do_statement s (ReadNormal j)) = Normal n -> snd (do_statement s2 (ReadNormal j)) = if mesh_alive s2 && (v_block (pm_normals s) =? v_block (pm_normals s2)) then Normal n else Undefined).
Proof.
  intros E Q. pose proof (execute_ok _ _ _ _ _ _ _ E (new_ok normal)) as K. pose proof (execute_ok _ _ _ _ _ _ _ Q K) as K2. pose proof (execute_further _ _ _ _ _ _ _ Q) as F.
  destruct (nth_error (pm_taken s) j) as [x|] eqn:X.
  2: { split; intros; exfalso; destruct s; cbn in *; rewrite X in *; discriminate. }
  destruct (read_points s j K x X) as (p0 & C & Nn & R & R'). destruct (read_points s2 j K2 x (taken_later _ _ _ _ F X)) as (p2 & C2 & Nn2 & R2 & R2'). pose proof (corners_later _ _ _ _ F C) as Cl. assert (p2 = p0) by congruence. subst p2.
  rewrite R, R', R2, R2'. split.
  - destruct (mesh_alive s); [|discriminate]. destruct (Nat.eqb_spec (x_block x) (v_block (pm_vertices s))) as [->|]; [|discriminate]. cbn [andb]. intros H. injection H as ->. reflexivity.
  - intros n. destruct (mesh_alive s); [|discriminate]. destruct (Nat.eqb_spec (x_nblock x) (v_block (pm_normals s))) as [->|]; [|discriminate]. cbn [andb]. intros H. injection H as ->. reflexivity.
Qed.
Definition adds_vertex (c : statement V) : bool := match c with AddVertex _ | Reserve _ => true | _ => false end.
Definition adds_triangle (c : statement V) : bool := match c with AddTriangle _ | Reserve _ => true | _ => false end.
Lemma do_blocks s c : (adds_vertex c = false -> v_block (pm_vertices (fst (do_statement s c))) = v_block (pm_vertices s)) /\ (adds_triangle c = false -> v_block (pm_normals (fst (do_statement s c))) = v_block (pm_normals s)).
Proof.
  destruct s as [named vs ts ns its taken]. destruct c; cbn [PyMeshModel.do_statement adds_vertex adds_triangle]; split; intros H; try discriminate H; try reflexivity; try (destruct named; reflexivity);
    try (destruct named; [|reflexivity]; destruct (corners (v_items vs) t); reflexivity);
    (destruct (nth_error its k) as [[c|]|]; try reflexivity; unfold next; destruct (c_triangles c); (destruct (_ <=? _); [reflexivity|]); [destruct (nth_error (v_items ts) (c_index c)); [|reflexivity]; destruct (triangle_n _ _); reflexivity|destruct (nth_error (v_items vs) (c_index c)); reflexivity]).
Qed.
Lemma same_blocks q s s2 rq : execute q s = Some (s2, rq) ->
  ((forall c, In c q -> adds_vertex c = false) -> v_block (pm_vertices s2) = v_block (pm_vertices s)) /\ ((forall c, In c q -> adds_triangle c = false) -> v_block (pm_normals s2) = v_block (pm_normals s)).
Proof.
  intros Q. split; intros H; revert Q.
  - apply (execute_keeps normal grow room (fun s s' => v_block (pm_vertices s') = v_block (pm_vertices s))); [reflexivity|congruence|]. intros s0 c I. apply do_blocks, H, I.
  - apply (execute_keeps normal grow room (fun s s' => v_block (pm_normals s') = v_block (pm_normals s))); [reflexivity|congruence|]. intros s0 c I. apply do_blocks, H, I.
Qed.

(** A triangle never changes: later it has the same corners and the same normal, or it must not be used any more. It may be used as long as
    something refers to the mesh and no vertex (for the corners) or triangle (for the normal) is added. *)
Theorem C74_kept : forall l s rs q s2 rq j p, execute l new_mesh = Some (s, rs) -> execute q s = Some (s2, rq) ->
  (snd (do_statement s (ReadPoints j)) = Corners p ->
   (snd (do_statement s2 (ReadPoints j)) = Corners p \/ snd (do_statement s2 (ReadPoints j)) = Undefined) /\
   (referred l s q -> (forall c, In c q -> adds_vertex c = false) -> snd (do_statement s2 (ReadPoints j)) = Corners p)) /\
  (forall n, snd (do_statement s (ReadNormal j)) = Normal n ->
   (snd (do_statement s2 (ReadNormal j)) = Normal n \/ snd (do_statement s2 (ReadNormal j)) = Undefined) /\
   (referred l s q -> (forall c, In c q -> adds_triangle c = false) -> snd (do_statement s2 (ReadNormal j)) = Normal n)).
Proof.
  intros l s rs q s2 rq j p E Q. destruct (kept_core _ _ _ _ _ _ j p E Q) as [A B]. split.
  - intros R. rewrite (A R). clear A B. split; [destruct (_ && _); [left|right]; reflexivity|]. intros F N. rewrite (referred_alive _ _ _ _ _ _ E Q F), (proj1 (same_blocks _ _ _ _ Q) N), Nat.eqb_refl. reflexivity.
  - intros n R. rewrite (B n R). clear A B. split; [destruct (_ && _); [left|right]; reflexivity|]. intros F N. rewrite (referred_alive _ _ _ _ _ _ E Q F), (proj2 (same_blocks _ _ _ _ Q) N), Nat.eqb_refl. reflexivity.
Qed.

(** Reserve: n triangles and half as many vertices can be added. *)
Lemma do_within s c r s' : do_statement s c = (s', r) -> ok normal s ->
  (forall C, C <= v_cap (pm_vertices s) -> length (v_items (pm_vertices s')) <= C -> (forall m, c = Reserve m -> (m + 1) / 2 <= C) -> v_block (pm_vertices s') = v_block (pm_vertices s)) /\
  (forall C, C <= v_cap (pm_normals s) -> length (v_items (pm_normals s')) <= C -> (forall m, c = Reserve m -> m <= C) -> v_block (pm_normals s') = v_block (pm_normals s)).
Proof.
  intros S K. assert (P : forall A (v : vec A) x C, C <= v_cap v -> length (v_items (push grow v x)) <= C -> v_block (push grow v x) = v_block v).
  { intros A v x C H L. rewrite push_items, app_length in L. cbn [length] in L. unfold push. replace (Datatypes.S (length (v_items v)) <=? v_cap v) with true; [reflexivity|]. symmetry. apply Nat.leb_le. lia. }
  assert (R : forall A (v : vec A) n, n <= v_cap v -> reserve room v n = v) by (intros A v n H; unfold reserve; apply Nat.leb_le in H; rewrite H; reflexivity).
  destruct (do_blocks s c) as [B1 B2]. rewrite S in B1, B2. cbn [fst] in B1, B2. destruct s as [named vs ts ns its taken]. split; intros C HC L M.
  - destruct (adds_vertex c) eqn:A; [|apply B1; reflexivity]. destruct c; try discriminate A; cbn [PyMeshModel.do_statement] in S; (destruct named; [|injection S as <- _; reflexivity]); injection S as <- _; cbn [pm_vertices] in *.
    + exact (P _ _ _ _ HC L). + rewrite R; [reflexivity|]. exact (Nat.le_trans _ _ _ (M n eq_refl) HC).
  - destruct (adds_triangle c) eqn:A; [|apply B2; reflexivity]. destruct c; try discriminate A; cbn [PyMeshModel.do_statement] in S; (destruct named; [|injection S as <- _; reflexivity]).
    + destruct (corners (v_items vs) t); injection S as <- _; [|reflexivity]. cbn [pm_normals] in *. exact (P _ _ _ _ HC L).
    + injection S as <- _; cbn [pm_normals] in *. rewrite R; [reflexivity|]. exact (Nat.le_trans _ _ _ (M n eq_refl) HC).
Qed.
Lemma within_blocks q : forall s s2 rq, execute q s = Some (s2, rq) -> ok normal s ->
  (forall C, C <= v_cap (pm_vertices s) -> length (v_items (pm_vertices s2)) <= C -> (forall m, In (Reserve m) q -> (m + 1) / 2 <= C) -> v_block (pm_vertices s2) = v_block (pm_vertices s)) /\
  (forall C, C <= v_cap (pm_normals s) -> length (v_items (pm_normals s2)) <= C -> (forall m, In (Reserve m) q -> m <= C) -> v_block (pm_normals s2) = v_block (pm_normals s)).
Proof.
  induction q as [|c q IH]; intros s s2 rq Q K. { injection Q as <- _. split; reflexivity. }
  apply execute_cons in Q. destruct Q as (s1 & r & rq' & S & _ & Q & _). pose proof (do_ok normal grow room s c K) as K1. pose proof (do_further normal grow room s c) as F. rewrite S in K1, F. cbn [fst] in K1, F. pose proof (execute_further _ _ _ _ _ _ _ Q) as F2. destruct (IH _ _ _ Q K1) as [I1 I2]. destruct (do_within _ _ _ _ S K) as [W1 W2].
  destruct F as (([e0 _] & Cv & _) & _ & (_ & Cn & _) & _). destruct F2 as (([e1 E1] & _) & _ & ([e2 E2] & _) & _). split; intros C HC L M.
  - rewrite (I1 C); [|lia|exact L|intros m I; apply M; right; exact I]. apply (W1 C HC). + rewrite E1, app_length in L. lia. + intros m ->. apply M. left. reflexivity.
  - rewrite (I2 C); [|lia|exact L|intros m I; apply M; right; exact I]. apply (W2 C HC). + rewrite E2, app_length in L. lia. + intros m ->. apply M. left. reflexivity.
Qed.
(** After Reserve(n) triangles may be kept while the mesh grows, as long as it has at most (n + 1) / 2 vertices and n triangles. *)
Theorem C74_reserved : forall a n b s rs q s2 rq j p, execute (a ++ Reserve n :: b) new_mesh = Some (s, rs) -> execute q s = Some (s2, rq) -> ~ In DropMesh a ->
  (forall m, In (Reserve m) q -> m <= n) -> referred (a ++ Reserve n :: b) s q ->
  (snd (do_statement s (ReadPoints j)) = Corners p -> length (added_vertices ((a ++ Reserve n :: b) ++ q)) <= (n + 1) / 2 -> snd (do_statement s2 (ReadPoints j)) = Corners p) /\
  (forall v, snd (do_statement s (ReadNormal j)) = Normal v -> length (added_triangles ((a ++ Reserve n :: b) ++ q)) <= n -> snd (do_statement s2 (ReadNormal j)) = Normal v).
Proof.
  intros a n b s rs q s2 rq j p E Q N M F. destruct (kept_core _ _ _ _ _ _ j p E Q) as [A B]. pose proof (referred_alive _ _ _ _ _ _ E Q F) as Al. pose proof (execute_ok _ _ _ _ _ _ _ E (new_ok normal)) as K. pose proof (execute_ok _ _ _ _ _ _ _ Q K) as K2.
  assert (W : execute ((a ++ Reserve n :: b) ++ q) new_mesh = Some (s2, rs ++ rq)) by (rewrite execute_app, E, Q; reflexivity). destruct (execute_items _ _ _ _ W) as [Iv It]. cbn [pm_named new_mesh pm_vertices pm_triangles v_items app] in Iv, It.
  assert (Cap : (n + 1) / 2 <= v_cap (pm_vertices s) /\ n <= v_cap (pm_normals s)).
  { rewrite execute_app in E. destruct (execute a new_mesh) as [[s1 r1]|] eqn:Ea; [|discriminate E]. destruct (execute (Reserve n :: b) s1) as [[s3 r3]|] eqn:Eb; [|discriminate E]. injection E as -> _. apply execute_cons in Eb. destruct Eb as (s4 & r & rs' & S & _ & Eb & _).
    assert (Nm : pm_named s1 = true) by (apply (named_end _ _ _ _ Ea); split; [reflexivity|exact N]). pose proof (execute_ok _ _ _ _ _ _ _ Ea (new_ok normal)) as (_ & _ & Cv & Cn). destruct (execute_further _ _ _ _ _ _ _ Eb) as ((_ & Lv & _) & _ & (_ & Ln & _) & _).
    destruct s1 as [named vs ts ns its taken]. cbn [pm_named pm_vertices pm_normals PyMeshModel.do_statement] in *. subst named. injection S as <- _. cbn [pm_vertices pm_normals] in *. split; [exact (Nat.le_trans _ _ _ (proj2 (reserve_cap room vs ((n + 1) / 2) Cv)) Lv)|exact (Nat.le_trans _ _ _ (proj2 (reserve_cap room ns n Cn)) Ln)]. }
  destruct (within_blocks _ _ _ _ Q K) as [B1 B2]. split.
  - intros R L. rewrite (A R), Al. rewrite (B1 ((n + 1) / 2)); [rewrite Nat.eqb_refl; reflexivity|apply Cap|rewrite Iv; exact L|]. intros m I. apply Nat.div_le_mono; [lia|]. specialize (M m I). lia.
  - intros v R L. rewrite (B v R), Al. rewrite (B2 n); [rewrite Nat.eqb_refl; reflexivity|apply Cap| |exact M]. destruct K2 as (T & _). rewrite <- (F2_length _ _ _ T), It. exact L.
Qed.

(** Otherwise triangles dangle: if enough vertices are added, and if nothing refers to the mesh any more. *)
Theorem C74_grow_refuted : forall l s rs j p v, execute l new_mesh = Some (s, rs) -> ~ In DropMesh l -> snd (do_statement s (ReadPoints j)) = Corners p ->
  exists n, execute (repeat (AddVertex v) n ++ [ReadPoints j]) s = None.
Proof.
  intros l s rs j p v E N R. assert (Nm : pm_named s = true) by (apply (named_end _ _ _ _ E); split; [reflexivity|exact N]). pose proof (execute_ok _ _ _ _ _ _ _ E (new_ok normal)) as K.
  assert (Z : forall n s0, pm_named s0 = true -> ok normal s0 -> v_cap (pm_vertices s0) < n + length (v_items (pm_vertices s0)) -> exists s1 r1, execute (repeat (AddVertex v) n) s0 = Some (s1, r1) /\ (v_cap (pm_vertices s0) < length (v_items (pm_vertices s0)) \/ v_block (pm_vertices s0) < v_block (pm_vertices s1))).
  { induction n as [|n IH]; intros s0 M K0 C. { exists s0, []. split; [reflexivity|]. left. lia. }
    pose proof (do_ok normal grow room s0 (AddVertex v) K0) as K1. cbn [repeat PyMeshModel.execute]. destruct s0 as [named vs ts ns its taken]. cbn [pm_named] in M. subst named. cbn [PyMeshModel.do_statement fst pm_vertices] in *.
    set (s1 := Pm true (push grow vs v) ts ns its taken) in *. destruct (Datatypes.S (length (v_items vs)) <=? v_cap vs) eqn:L.
    - destruct (IH s1 eq_refl K1) as (s2 & r2 & -> & D). { cbn. unfold push. rewrite L. cbn. rewrite app_length. cbn. lia. }
      exists s2, (Number (length (v_items vs)) :: r2). split; [reflexivity|]. right. revert D. cbn. unfold push. rewrite L. cbn. rewrite app_length. cbn [length]. apply Nat.leb_le in L. lia.
    - assert (Y : exists s2 r2, execute (repeat (AddVertex v) n) s1 = Some (s2, r2)).
      { subst s1. clear. generalize (push grow vs v). induction n as [|n IH]; intros u; [eexists; eexists; reflexivity|]. cbn [repeat PyMeshModel.execute PyMeshModel.do_statement]. destruct (IH (push grow u v)) as (s2 & r2 & ->). eexists. eexists. reflexivity. }
      destruct Y as (s2 & r2 & Y). rewrite Y. exists s2, (Number (length (v_items vs)) :: r2). split; [reflexivity|]. right. destruct (execute_further _ _ _ _ _ _ _ Y) as ((_ & _ & B) & _). revert B. cbn. unfold push. rewrite L. cbn. lia. }
  destruct (Z (S (v_cap (pm_vertices s))) s Nm K) as (s1 & r1 & Q & D); [lia|]. destruct D as [D|D]; [destruct K as (_ & _ & Cv & _); lia|]. exists (S (v_cap (pm_vertices s))). rewrite execute_app, Q. cbn [PyMeshModel.execute].
  pose proof (proj1 (kept_core _ _ _ _ _ _ j p E Q) R) as U. destruct (Nat.eqb_spec (v_block (pm_vertices s)) (v_block (pm_vertices s1))); [lia|]. rewrite andb_false_r in U. destruct (do_statement s1 (ReadPoints j)) as [s3 o]. cbn [snd] in U. rewrite U. reflexivity.
Qed.
(** Reserving more than there is memory for moves the vertices and the normals. *)
Theorem C74_reserve_refuted : forall l s rs j, execute l new_mesh = Some (s, rs) -> ~ In DropMesh l ->
  exists m, forall n, m <= n ->
    (forall p, snd (do_statement s (ReadPoints j)) = Corners p -> execute [Reserve n; ReadPoints j] s = None) /\
    (forall x, snd (do_statement s (ReadNormal j)) = Normal x -> execute [Reserve n; ReadNormal j] s = None).
Proof.
  intros l s rs j E N. assert (Nm : pm_named s = true) by (apply (named_end _ _ _ _ E); split; [reflexivity|exact N]).
  exists (2 * S (v_cap (pm_vertices s) + v_cap (pm_normals s))). intros n Hn.
  assert (H : v_cap (pm_vertices s) < (n + 1) / 2). { apply Nat.div_le_lower_bound; lia. }
  assert (Q : exists s1, execute [Reserve n] s = Some (s1, [Nothing]) /\ v_block (pm_vertices s1) = S (v_block (pm_vertices s)) /\ v_block (pm_normals s1) = S (v_block (pm_normals s))).
  { destruct s as [named vs ts ns its taken]. cbn [pm_named pm_vertices pm_normals] in *. subst named. eexists. split; [reflexivity|]. cbn [pm_vertices pm_normals]. unfold reserve. rewrite (proj2 (Nat.leb_gt _ _) H), (proj2 (Nat.leb_gt n (v_cap ns))) by lia. split; reflexivity. }
  destruct Q as (s1 & Q & B1 & B2). split.
  - intros p R. pose proof (proj1 (kept_core _ _ _ _ _ _ j p E Q) R) as A. rewrite B1 in A. change (execute ([Reserve n] ++ [ReadPoints j]) s = None). rewrite execute_app, Q. cbn [PyMeshModel.execute].
    destruct (Nat.eqb_spec (v_block (pm_vertices s)) (S (v_block (pm_vertices s)))) as [X|_]; [exfalso; lia|]. rewrite andb_false_r in A. destruct (do_statement s1 (ReadPoints j)) as [s3 o]. cbn [snd] in A. rewrite A. reflexivity.
  - intros x R. pose proof (proj2 (kept_core _ _ _ _ _ _ j (Tri x x x) E Q) x R) as A. rewrite B2 in A. change (execute ([Reserve n] ++ [ReadNormal j]) s = None). rewrite execute_app, Q. cbn [PyMeshModel.execute].
    destruct (Nat.eqb_spec (v_block (pm_normals s)) (S (v_block (pm_normals s)))) as [X|_]; [exfalso; lia|]. rewrite andb_false_r in A. destruct (do_statement s1 (ReadNormal j)) as [s3 o]. cbn [snd] in A. rewrite A. reflexivity.
Qed.
Theorem C74_dropped_refuted : forall l s rs j p, execute l new_mesh = Some (s, rs) -> snd (do_statement s (ReadPoints j)) = Corners p ->
  execute (DropMesh :: map DropIterator (seq 0 (length l)) ++ [ReadPoints j]) s = None.
Proof.
  intros l s rs j p E R.
  assert (Le : length (pm_iterators s) <= length l).
  { assert (G : forall l s0 s1 r1, execute l s0 = Some (s1, r1) -> length (pm_iterators s1) <= length l + length (pm_iterators s0)).
    { clear. induction l as [|c l IH]; intros s0 s1 r1 H. { injection H as <- _. lia. } apply execute_cons in H. destruct H as (s2 & r & rs & S & _ & H & _). specialize (IH _ _ _ H). cbn [length].
      assert (length (pm_iterators s2) <= 1 + length (pm_iterators s0)); [|lia]. destruct s0 as [named vs ts ns its taken]. destruct c; cbn [PyMeshModel.do_statement] in S; try (injection S as <- _; cbn; rewrite ?put_length; lia); try (destruct named; injection S as <- _; cbn; rewrite ?app_length; cbn; lia).
      - destruct named; [|injection S as <- _; cbn; lia]. destruct (corners (v_items vs) t); injection S as <- _; cbn; lia.
      - destruct (nth_error its k) as [[c|]|]; try (injection S as <- _; cbn; lia). unfold next in S. destruct (c_triangles c); (destruct (_ <=? _); [injection S as <- _; cbn; lia|]).
        + destruct (nth_error (v_items ts) (c_index c)); [|injection S as <- _; cbn; lia]. destruct (triangle_n _ _); injection S as <- _; cbn; rewrite ?put_length; lia. + destruct (nth_error (v_items vs) (c_index c)); injection S as <- _; cbn; rewrite ?put_length; lia. }
    pose proof (G _ _ _ _ E) as H. cbn in H. lia. }
  assert (Z : forall n s0, exists s1 r1, execute (map DropIterator (seq 0 n)) s0 = Some (s1, r1) /\ pm_named s1 = pm_named s0 /\ length (pm_iterators s1) = length (pm_iterators s0) /\ (forall k, k < n -> k < length (pm_iterators s0) -> nth_error (pm_iterators s1) k = Some None)).
  { induction n as [|n IH]; intros s0. { exists s0, []. split; [reflexivity|]. split; [reflexivity|]. split; [reflexivity|]. intros k H. lia. }
    destruct (IH s0) as (s1 & r1 & H & Nm & Ln & D). rewrite seq_S, map_app, execute_app, H. cbn [map PyMeshModel.execute]. destruct s1 as [named vs ts ns its taken]. cbn [PyMeshModel.do_statement]. eexists. eexists. split; [reflexivity|]. cbn [pm_named pm_iterators] in *. split; [exact Nm|]. rewrite put_length. split; [exact Ln|].
    intros k H1 H2. rewrite nth_put. cbn [Nat.add]. destruct (Nat.eqb_spec k n) as [->|]; cbn [andb]. - replace (n <? length its) with true; [reflexivity|]. symmetry. apply Nat.ltb_lt. lia. - apply D; lia. }
  rewrite app_comm_cons, execute_app. set (s0 := fst (do_statement s DropMesh)). destruct (Z (length l) s0) as (s1 & r1 & H & Nm & Ln & D).
  assert (Q : execute (DropMesh :: map DropIterator (seq 0 (length l))) s = Some (s1, Nothing :: r1)). { cbn [PyMeshModel.execute]. subst s0. destruct s as [named vs ts ns its taken]. cbn [PyMeshModel.do_statement fst] in *. rewrite H. reflexivity. }
  rewrite Q. cbn [PyMeshModel.execute]. pose proof (proj1 (kept_core _ _ _ _ _ _ j p E Q) R) as U. assert (Dead : mesh_alive s1 = false).
  { unfold mesh_alive. rewrite Nm. subst s0. destruct s as [named vs ts ns its taken]. cbn [PyMeshModel.do_statement fst pm_named pm_iterators orb] in *. apply not_true_is_false. intros X. apply existsb_exists in X. destruct X as (c & I & X). apply In_nth_error in I. destruct I as [k I]. assert (k < length (pm_iterators s1)) by (apply nth_error_Some; congruence). rewrite D in I by lia. injection I as <-. discriminate X. }
  rewrite Dead in U. destruct (do_statement s1 (ReadPoints j)) as [s3 o]. cbn [andb snd] in U. rewrite U. reflexivity.
Qed.
(** An iterator that has ended goes on if a vertex is added; a loop that adds a vertex in each step never ends. *)
Theorem C74_exhausted_refuted : forall a b s ra rb k v, execute (a ++ Vertices :: b) new_mesh = Some (s, ra ++ Handle k :: rb) -> length ra = length a -> ~ In (DropIterator k) b -> ~ In DropMesh (a ++ Vertices :: b) ->
  snd (do_statement s (Next k)) = Exhausted -> exists s' n, execute [Next k; AddVertex v; Next k] s = Some (s', [Exhausted; Number n; Point v]).
Proof.
  intros a b s ra rb k v E L D N X. pose proof (made a b _ s ra rb k (or_introl eq_refl) E L D) as I. assert (Nm : pm_named s = true) by (apply (named_end _ _ _ _ E); split; [reflexivity|exact N]).
  assert (Bd : given k b rb <= length (v_items (pm_vertices s))).
  { clear X N Nm. assert (G : forall l s0 s1 r1 i, execute l s0 = Some (s1, r1) -> nth_error (pm_iterators s0) k = Some (Some (Cursor false i)) -> i <= length (v_items (pm_vertices s0)) -> ~ In (DropIterator k) l -> i + given k l r1 <= length (v_items (pm_vertices s1))).
    { clear. induction l as [|c l IH]; intros s0 s1 r1 i H I Li Dl. { injection H as <- <-. cbn. lia. } apply execute_cons in H. destruct H as (s2 & r & rs & S & U & H & ->). rewrite given_cons, Nat.add_assoc. assert (Dc : c <> DropIterator k) by (intros ->; apply Dl; left; reflexivity).
      apply (IH s2 s1 rs); [exact H|exact (do_iterator _ _ _ _ _ _ _ S U I Dc)| |intros Z; apply Dl; right; exact Z]. pose proof (do_further normal grow room s0 c) as (([e Ee] & _) & _). rewrite S in Ee. cbn [fst] in Ee. rewrite Ee, app_length.
      destruct c; cbn [given]; try lia. destruct (Nat.eqb_spec k0 k) as [->|]; cbn [andb]; [|lia]. destruct s0 as [named vs ts ns its taken]. cbn [PyMeshModel.do_statement pm_iterators pm_vertices] in *. rewrite I in S. unfold next in S. cbn [c_triangles c_index] in S. destruct (length (v_items vs) <=? i) eqn:Q; [injection S as _ <-; cbn; lia|]. apply Nat.leb_gt in Q. destruct (gave r); lia. }
    rewrite execute_app in E. destruct (execute a new_mesh) as [[s1 r1]|] eqn:Ea; [|discriminate E]. destruct (execute (Vertices :: b) s1) as [[s2 r2]|] eqn:Eb; [|discriminate E]. injection E as <- E. destruct (app_parts r1 ra r2 (Handle k :: rb)) as [-> ->]; [pose proof (execute_length _ _ _ _ _ _ _ Ea); congruence|exact E|].
    apply execute_cons in Eb. destruct Eb as (s3 & r & rs' & S & _ & Eb & Rr). injection Rr as <- <-. apply (G b s3 s2 rb 0 Eb); [|lia|exact D]. destruct s1 as [named vs ts ns its taken]. cbn [PyMeshModel.do_statement] in S. destruct named; [|discriminate S]. injection S as <- <-. cbn [pm_iterators]. rewrite nth_error_app2, Nat.sub_diag by lia. reflexivity. }
  destruct s as [named vs ts ns its taken]. cbn [pm_named pm_iterators pm_vertices] in *. subst named. cbn [PyMeshModel.execute PyMeshModel.do_statement] in X |- *. rewrite I in X |- *. unfold next in X |- *. cbn [c_triangles c_index] in *. destruct (length (v_items vs) <=? given k b rb) eqn:Q.
  - apply Nat.leb_le in Q. assert (Y : length (v_items vs) = given k b rb) by lia. cbn [PyMeshModel.do_statement]. rewrite I. unfold next. cbn [c_triangles c_index]. rewrite push_items, app_length. cbn [length]. replace (length (v_items vs) + 1 <=? given k b rb) with false by (symmetry; apply Nat.leb_gt; lia). rewrite nth_error_app2, Y, Nat.sub_diag by lia. cbn [nth_error]. eexists. eexists. reflexivity.
  - exfalso. cbn [snd] in X. destruct (nth_error (v_items vs) (given k b rb)); discriminate X.
Qed.
Theorem C74_endless : forall l s rs v n, execute l new_mesh = Some (s, rs) -> ~ In DropMesh l -> added_vertices l <> [] -> exists k s' r,
  execute (Vertices :: concat (repeat [Next k; AddVertex v] n)) s = Some (s', Handle k :: r) /\ ~ In Exhausted r /\ given k (concat (repeat [Next k; AddVertex v] n)) r = n.
Proof.
  intros l s rs v n E N A. destruct (execute_items _ _ _ _ E) as [I _]. cbn [pm_named new_mesh pm_vertices v_items app] in I. rewrite <- I in A. assert (Nm : pm_named s = true) by (apply (named_end _ _ _ _ E); split; [reflexivity|exact N]).
  destruct s as [named vs ts ns its taken]. cbn [pm_named pm_vertices] in *. subst named. exists (length its).
  assert (K : forall n i vs its', i < length (v_items vs) -> nth_error its' (length its) = Some (Some (Cursor false i)) -> exists s' r,
    execute (concat (repeat [Next (length its); AddVertex v] n)) (Pm true vs ts ns its' taken) = Some (s', r) /\ ~ In Exhausted r /\ given (length its) (concat (repeat [Next (length its); AddVertex v] n)) r = n).
  { clear. induction n as [|n IH]; intros i vs its' L I. { exists (Pm true vs ts ns its' taken), []. split; [reflexivity|]. split; [intros []|reflexivity]. }
    cbn [repeat concat app PyMeshModel.execute PyMeshModel.do_statement]. rewrite I. unfold next. cbn [c_triangles c_index]. replace (length (v_items vs) <=? i) with false by (symmetry; apply Nat.leb_gt; lia). destruct (nth_error (v_items vs) i) as [x|] eqn:X; [|apply nth_error_None in X; lia].
    cbn [PyMeshModel.do_statement]. destruct (IH (S i) (push grow vs v) (put its' (length its) (Some (Cursor false (S i))))) as (s' & r & -> & Z & G).
    - rewrite push_items, app_length. cbn [length]. lia. - rewrite nth_put, Nat.eqb_refl. cbn [andb]. replace (length its <? length its') with true; [reflexivity|]. symmetry. apply Nat.ltb_lt, nth_error_Some. congruence.
    - eexists. eexists. split; [reflexivity|]. split. + intros [H|[H|H]]; [discriminate H|discriminate H|exact (Z H)]. + cbn [given]. rewrite Nat.eqb_refl. cbn [andb gave]. rewrite G. reflexivity. }
  destruct (K n 0 vs (its ++ [Some (Cursor false 0)])) as (s' & r & H & Z & G). { destruct (v_items vs); [contradiction|cbn; lia]. } { rewrite nth_error_app2, Nat.sub_diag by lia. reflexivity. }
  exists s', r. cbn [PyMeshModel.execute PyMeshModel.do_statement]. rewrite H. split; [reflexivity|]. split; [exact Z|exact G].
Qed.
End Props.
Print Assumptions C74_build.
Print Assumptions C74_undefined.
Print Assumptions C74_vertices.
Print Assumptions C74_triangles.
Print Assumptions C74_loop.
Print Assumptions C74_kept.
Print Assumptions C74_reserved. Print Assumptions C74_reserve_refuted.
Print Assumptions C74_grow_refuted.
Print Assumptions C74_dropped_refuted.
Print Assumptions C74_exhausted_refuted.
Print Assumptions C74_endless.

(** ** Concrete programs. Points are numbers; memory grows as in libstdc++: twice the size, and exactly what is reserved. *)
Definition sum3 (t : tri nat) : nat := P1 t + P2 t + P3 t.
Definition run0 (l : list (statement nat)) : option (list (outcome nat)) := option_map snd (execute sum3 (fun n => n - 2) (fun _ => 0) l new_mesh).
Definition square : list (statement nat) := [AddVertex 5; AddVertex 6; AddVertex 7; AddVertex 8; AddTriangle (0, 1, 2); AddTriangle (0, 2, 3)].
(** Building, iterating and reading; the iterator sees a vertex that is added later (C74_build, C74_vertices, C74_triangles, C74_loop). *)
Example C74_example : run0 (square ++ [Triangles; Next 0; ReadPoints 0; Next 0; ReadNormal 1; Next 0; Vertices; Next 1; Next 1; Next 1; Next 1; AddVertex 9; Next 1; Next 1; CountVertices]) =
  Some [Number 0; Number 1; Number 2; Number 3; Nothing; Nothing; Handle 0; Taken 0; Corners (Tri 5 6 7); Taken 1; Normal 20; Exhausted; Handle 1; Point 5; Point 6; Point 7; Point 8; Number 4; Point 9; Exhausted; Number 5].
Proof. reflexivity. Qed.
(** An index that is too large (C74_build, C74_undefined). *)
Example C74_example_index : run0 [AddVertex 5; AddVertex 6; AddVertex 7; AddTriangle (0, 1, 3)] = None /\ run0 [AddVertex 5; AddVertex 6; AddVertex 7; AddTriangle (0, 1, 2)] <> None.
Proof. split; [reflexivity|discriminate]. Qed.
(** Kept triangles (C74_kept): after the name is deleted, by the iterator; the normal after a vertex was added. *)
Example C74_example_kept : run0 (square ++ [Triangles; Next 0; DropMesh; ReadPoints 0; ReadNormal 0; AddVertex 1]) = Some [Number 0; Number 1; Number 2; Number 3; Nothing; Nothing; Handle 0; Taken 0; Nothing; Corners (Tri 5 6 7); Normal 18; Raises] /\
  run0 (square ++ [Triangles; Next 0; AddVertex 9; ReadNormal 0]) = Some [Number 0; Number 1; Number 2; Number 3; Nothing; Nothing; Handle 0; Taken 0; Number 4; Normal 18].
Proof. split; reflexivity. Qed.
(** With enough reserved they can be kept (C74_reserved); the number of triangles of an octahedron is not enough for its six vertices (C74_grow_refuted). *)
Example C74_example_reserve : run0 ([Reserve 12] ++ square ++ [Triangles; Next 0; AddVertex 9; AddVertex 10; AddTriangle (0, 3, 4); ReadPoints 0; ReadNormal 0]) =
    Some [Nothing; Number 0; Number 1; Number 2; Number 3; Nothing; Nothing; Handle 0; Taken 0; Number 4; Number 5; Nothing; Corners (Tri 5 6 7); Normal 18] /\
  run0 ([Reserve 8] ++ square ++ [Triangles; Next 0; ReadPoints 0; AddVertex 9; ReadPoints 0]) = None /\
  run0 (square ++ [Triangles; Next 0; ReadNormal 0; Reserve 100; ReadNormal 0]) = None.
Proof. split; [reflexivity|]. split; reflexivity. Qed.
(** Triangles of a mesh that does not exist any more, as in list(make_mesh().Triangles()) (C74_dropped_refuted). *)
Example C74_example_dropped : run0 (square ++ [Triangles; Next 0; Next 0; DropMesh; ReadPoints 1; DropIterator 0; ReadPoints 1]) = None /\
  run0 (square ++ [Triangles; Next 0; Next 0; DropMesh; ReadPoints 1; DropIterator 0]) <> None.
Proof. split; [reflexivity|discriminate]. Qed.
(** An iterator that has ended and goes on, and a loop that does not end (C74_exhausted_refuted, C74_endless). *)
Example C74_example_endless : run0 [AddVertex 5; Vertices; Next 0; Next 0; AddVertex 6; Next 0; AddVertex 7; Next 0; AddVertex 8; Next 0] = Some [Number 0; Handle 0; Point 5; Exhausted; Number 1; Point 6; Number 2; Point 7; Number 3; Point 8].
Proof. reflexivity. Qed.
