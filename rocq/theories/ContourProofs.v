(** Proofs about the containers of a planar contour: indices stay valid and no container outgrows its reservation. *)
From Coq Require Import Reals List Arith Bool Permutation Lia Lra.
From Verif Require Import Geo MappingModel MeshModel MeshProofs MeshGeoModel MeshGeoProofs ClipModel ClipMeshProofs GeoQueryModel SatMain DomainModel DomainProps ContourModel.
Import ListNotations.
Local Open Scope R_scope.

Lemma and_then_some {A B} (x : option A) (f : A -> option B) b : and_then x f = Some b <-> exists a, x = Some a /\ f a = Some b.
Proof. destruct x; cbn; split; intros H; [eauto|destruct H as (? & E & H); injection E as <-; exact H|discriminate|destruct H as (? & ? & _); discriminate]. Qed.
Lemma option_map_some {A B} (f : A -> B) x b : option_map f x = Some b <-> exists a, x = Some a /\ f a = b.
Proof. destruct x; cbn; split; intros H; [injection H as <-; eauto|destruct H as (? & E & H); injection E as <-; now f_equal|discriminate|destruct H as (? & ? & _); discriminate]. Qed.

Section Contour.
Variable pl : plane.
Variable lookup : list point2 -> point2 -> option nat.
Variable sort_points : list point2 -> list point2.
Variable sort_edges : list point2 -> list (edge2 * bool) -> list (edge2 * bool).
Variable inside : pt -> bool.
Variable cap : nat.
Notation tol := (snap pl).
Notation find_vertex := (find_vertex lookup).
Notation unique_ids := (unique_ids pl lookup).
Notation insert_at := (insert_at lookup cap).
Notation insert_edge2 := (insert_edge2 pl lookup cap).
Notation insert_edge3 := (insert_edge3 pl lookup cap).

Lemma snap_pos : 0 < tol.
Proof. unfold snap, relative_tol. eapply Rlt_le_trans; [|apply Rmax_r]. apply Rinv_0_lt_compat, pow_lt. lra. Qed.

(** Valid indices. *)
Definition edge_valid (n : nat) (e : edge2) : Prop := (ev1 e < n /\ ev2 e < n)%nat.
Definition valid (c : cont) : Prop := Forall (edge_valid (length (verts c))) (edges c) /\ Forall (fun i => (i < length (verts c))%nat) (vset c).
Definition seg (vs : list point2) (e : edge2) : point2 * point2 := (nth (ev1 e) vs (0, 0), nth (ev2 e) vs (0, 0)).
Definition segs (c : cont) : list (point2 * point2) := map (seg (verts c)) (edges c).

Lemma ends_seg c e : edge_valid (length (verts c)) e -> ends c e = Some (seg (verts c) e).
Proof.
  intros [H1 H2]. unfold ends, end1, end2, seg. rewrite (nth_error_nth' (verts c) (0, 0) H1), (nth_error_nth' (verts c) (0, 0) H2). reflexivity.
Qed.
Lemma each_map {A B} (f : A -> option B) (g : A -> B) l : Forall (fun a => f a = Some (g a)) l -> each f l = Some (map g l).
Proof. induction 1 as [|a l E _ IH]; cbn; [reflexivity|]. rewrite E. cbn. rewrite IH. reflexivity. Qed.
Lemma each_ends c : valid c -> each (ends c) (edges c) = Some (segs c).
Proof. intros [F _]. apply each_map. revert F. apply Forall_impl. intros e. apply ends_seg. Qed.
Lemma edge_valid_le n m e : (n <= m)%nat -> edge_valid n e -> edge_valid m e.
Proof. unfold edge_valid. lia. Qed.
Lemma seg_app vs ws e : edge_valid (length vs) e -> seg (vs ++ ws) e = seg vs e.
Proof. intros [H1 H2]. unfold seg. rewrite !app_nth1 by assumption. reflexivity. Qed.

Lemma find_in c p i : valid c -> find_vertex c p = Some i -> (i < length (verts c))%nat.
Proof.
  intros [_ F]. unfold ContourModel.find_vertex. destruct (lookup _ _) as [k|]; [|discriminate]. intros E.
  apply nth_error_In in E. rewrite Forall_forall in F. exact (F _ E).
Qed.

(** The new vertices of an edge. *)
Definition new_of (c : cont) (p : point2) : list point2 := match find_vertex c p with Some _ => [] | None => [p] end.
Definition news (c : cont) (a b : point2) : list point2 := new_of c a ++ new_of c b.
Lemma news_length c a b : (length (news c a b) <= 2)%nat.
Proof. unfold news, new_of. destruct (find_vertex c a), (find_vertex c b); cbn; lia. Qed.
Lemma news_in c a b p : In p (news c a b) -> p = a \/ p = b.
Proof. unfold news, new_of. destruct (find_vertex c a), (find_vertex c b); cbn; intuition. Qed.

(** The result of InsertEdge: nothing, or one more edge whose end points are the found or the new vertices. *)
Definition end_of (c : cont) (p v : point2) : Prop :=
  v = p \/ exists i, find_vertex c p = Some i /\ nth_error (verts c) i = Some v.
Definition inserted (a b n : point2) (c c' : cont) : Prop :=
  exists i j, edges c' = edges c ++ [Edge2 i j n []] /\ verts c' = verts c ++ news c a b /\ i <> j /\ valid c' /\ psame tol a b = false /\
    end_of c a (nth i (verts c') (0, 0)) /\ end_of c b (nth j (verts c') (0, 0)).
Definition untouched (a b : point2) (c : cont) : Prop :=
  psame tol a b = true \/ exists i, find_vertex c a = Some i /\ find_vertex c b = Some i.

Lemma insert_at_new p c : length (verts c) = length (verts c) -> (length (verts c) < cap)%nat -> exists vs',
  insert_at p (length (verts c)) c = Some (Cont (verts c ++ [p]) vs' (edges c)) /\ (Forall (fun i => (i < length (verts c))%nat) (vset c) -> Forall (fun i => (i < S (length (verts c)))%nat) vs').
Proof.
  intros _ L. unfold ContourModel.insert_at. rewrite Nat.eqb_refl. apply Nat.ltb_lt in L. rewrite L. eexists. split; [reflexivity|]. intros F.
  assert (F' : Forall (fun i => (i < S (length (verts c)))%nat) (vset c)) by (revert F; apply Forall_impl; lia).
  destruct (find_vertex c p); [exact F'|]. apply Forall_app. split; [exact F'|]. repeat constructor.
Qed.
Lemma insert_at_old p i c : (i < length (verts c))%nat -> insert_at p i c = Some c.
Proof.
  intros L. unfold ContourModel.insert_at. replace (i =? length (verts c))%nat with false by (symmetry; apply Nat.eqb_neq; lia).
  replace (length (verts c) <? i)%nat with false by (symmetry; apply Nat.ltb_ge; lia). reflexivity.
Qed.
Lemma nth_new (vs ws : list point2) k d : nth (length vs + k) (vs ++ ws) d = nth k ws d.
Proof. rewrite app_nth2_plus. reflexivity. Qed.
Lemma nth_new0 (vs ws : list point2) d : nth (length vs) (vs ++ ws) d = nth 0 ws d.
Proof. rewrite <- (nth_new vs ws 0 d). f_equal. lia. Qed.

Lemma insert_edge2_ok a b n c : valid c -> (length (verts c) + length (news c a b) <= cap)%nat -> exists c',
  insert_edge2 a b n c = Some c' /\ (c' = c /\ untouched a b c \/ inserted a b n c c').
Proof.
  intros V L. assert (V' := V). destruct V' as [VE VS]. unfold ContourModel.insert_edge2, ContourModel.unique_ids.
  destruct (psame tol a b) eqn:Es.
  { exists c. split; [reflexivity|]. left. split; [reflexivity|]. left. exact Es. }
  unfold news, new_of in *. destruct (find_vertex c a) as [i|] eqn:Ea; destruct (find_vertex c b) as [j|] eqn:Eb.
  - destruct (Nat.eqb_spec i j) as [->|N].
    { exists c. split; [reflexivity|]. left. split; [reflexivity|]. right. eauto. }
    pose proof (find_in c a i V Ea) as Ha. pose proof (find_in c b j V Eb) as Hb.
    apply Nat.eqb_neq in N as N'. rewrite N'. rewrite insert_at_old by exact Ha. cbn [and_then]. rewrite insert_at_old by exact Hb. cbn [and_then].
    eexists. split; [reflexivity|]. right. exists i, j. cbn [edges verts vset]. split; [reflexivity|]. unfold news, new_of. rewrite Ea, Eb. cbn [app].
    rewrite app_nil_r. split; [reflexivity|]. split; [exact N|]. split.
    { split; cbn [edges verts vset]; [|exact VS]. apply Forall_app. split; [exact VE|]. repeat constructor; assumption. }
    split; [exact Es|]. split; right; eexists; (split; [eassumption|]); apply nth_error_nth'; assumption.
  - pose proof (find_in c a i V Ea) as Ha. replace (i =? length (verts c))%nat with false by (symmetry; apply Nat.eqb_neq; lia).
    rewrite insert_at_old by exact Ha. cbn [and_then]. cbn [app length] in L.
    destruct (insert_at_new b c eq_refl ltac:(lia)) as (vs' & E & F). rewrite E. cbn [and_then]. eexists. split; [reflexivity|]. right.
    exists i, (length (verts c)). cbn [edges verts vset]. split; [reflexivity|]. unfold news, new_of. rewrite Ea, Eb. cbn [app].
    split; [reflexivity|]. split; [lia|]. split.
    { split; cbn [edges verts vset]; rewrite app_length; cbn [length].
      - apply Forall_app. split; [revert VE; apply Forall_impl; intros e; apply edge_valid_le; lia|]. repeat constructor; cbn; lia.
      - specialize (F VS). revert F. apply Forall_impl. lia. }
    split; [exact Es|]. split.
    + right. exists i. split; [exact Ea|]. rewrite app_nth1 by exact Ha. apply nth_error_nth'; exact Ha.
    + left. rewrite nth_new0. reflexivity.
  - pose proof (find_in c b j V Eb) as Hb. replace (length (verts c) =? j)%nat with false by (symmetry; apply Nat.eqb_neq; lia).
    cbn [app length] in L. destruct (insert_at_new a c eq_refl ltac:(lia)) as (vs' & E & F). rewrite E. cbn [and_then].
    rewrite insert_at_old by (cbn [verts]; rewrite app_length; lia). cbn [and_then edges verts vset]. eexists. split; [reflexivity|]. right.
    exists (length (verts c)), j. cbn [edges verts vset]. split; [reflexivity|]. unfold news, new_of. rewrite Ea, Eb. cbn [app].
    split; [reflexivity|]. split; [lia|]. split.
    { split; cbn [edges verts vset]; rewrite app_length; cbn [length].
      - apply Forall_app. split; [revert VE; apply Forall_impl; intros e; apply edge_valid_le; lia|]. repeat constructor; cbn; lia.
      - specialize (F VS). revert F. apply Forall_impl. lia. }
    split; [exact Es|]. split.
    + left. rewrite nth_new0. reflexivity.
    + right. exists j. split; [exact Eb|]. rewrite app_nth1 by exact Hb. apply nth_error_nth'; exact Hb.
  - replace (length (verts c) =? length (verts c) + 1)%nat with false by (symmetry; apply Nat.eqb_neq; lia).
    cbn [app length] in L. destruct (insert_at_new a c eq_refl ltac:(lia)) as (vs1 & E & F). rewrite E. cbn [and_then].
    set (c1 := Cont (verts c ++ [a]) vs1 (edges c)). assert (L1 : length (verts c1) = (length (verts c) + 1)%nat) by (cbn; rewrite app_length; reflexivity).
    rewrite <- L1. destruct (insert_at_new b c1 eq_refl ltac:(lia)) as (vs2 & E2 & F2). rewrite E2. cbn [and_then].
    eexists. split; [reflexivity|]. right. exists (length (verts c)), (length (verts c1)). cbn [edges verts vset c1]. split; [reflexivity|].
    unfold news, new_of. rewrite Ea, Eb. cbn [app]. rewrite <- app_assoc. cbn [app]. split; [reflexivity|]. split; [rewrite app_length; cbn; lia|]. split.
    { split; cbn [edges verts vset]; rewrite app_length; cbn [length].
      - apply Forall_app. split; [revert VE; apply Forall_impl; intros e; apply edge_valid_le; lia|]. rewrite app_length. repeat constructor; cbn; lia.
      - assert (G : Forall (fun i => (i < length (verts c1))%nat) (vset c1)) by (rewrite L1; specialize (F VS); revert F; apply Forall_impl; lia).
        specialize (F2 G). revert F2. apply Forall_impl. rewrite L1. lia. }
    split; [exact Es|]. split; left.
    + rewrite nth_new0. reflexivity.
    + rewrite app_length. cbn [length]. rewrite nth_new. reflexivity.
Qed.

(** *** The set refers to all vertices if its search is sound and complete *)
Definition sound : Prop := forall ps p k, lookup ps p = Some k -> exists q, nth_error ps k = Some q /\ psame tol q p = true.
Definition complete : Prop := forall ps p, (exists q, In q ps /\ psame tol q p = true) -> lookup ps p <> None.
Definition full (c : cont) : Prop := vset c = seq 0 (length (verts c)).

Lemma map_nth_seq {A} (d : A) l : map (fun i => nth i l d) (seq 0 (length l)) = l.
Proof.
  apply (nth_ext _ _ d d); [rewrite map_length, seq_length; reflexivity|]. intros i H. rewrite map_length, seq_length in H.
  rewrite (nth_indep _ d (nth 0 l d)) by (rewrite map_length, seq_length; exact H).
  rewrite (map_nth (fun i => nth i l d)). rewrite seq_nth by exact H. reflexivity.
Qed.
Lemma full_points c : full c -> set_points c = verts c.
Proof. intros F. unfold set_points. rewrite F. apply map_nth_seq. Qed.
Lemma full_found c p i : sound -> full c -> find_vertex c p = Some i -> exists q, nth_error (verts c) i = Some q /\ psame tol q p = true.
Proof.
  intros S F. unfold ContourModel.find_vertex. rewrite full_points by exact F. destruct (lookup _ _) as [k|] eqn:E; [|discriminate].
  destruct (S _ _ _ E) as (q & Eq & Hq). intros G. rewrite F in G. assert (k < length (verts c))%nat by (apply nth_error_Some; congruence).
  assert (Ek : nth_error (seq 0 (length (verts c))) k = Some k).
  { rewrite (nth_error_nth' _ 0%nat) by (rewrite seq_length; assumption). rewrite seq_nth by assumption. reflexivity. }
  rewrite Ek in G. injection G as <-. eauto.
Qed.
Lemma full_not_found c p : sound -> complete -> full c -> find_vertex c p = None -> forall q, In q (verts c) -> psame tol q p = false.
Proof.
  intros S C F N q I. destruct (psame tol q p) eqn:E; [|reflexivity]. exfalso. unfold ContourModel.find_vertex in N. rewrite full_points in N by exact F.
  destruct (lookup (verts c) p) as [k|] eqn:El; [|exact (C _ p (ex_intro _ q (conj I E)) El)].
  destruct (S _ _ _ El) as (q' & Eq & _). assert (k < length (verts c))%nat by (apply nth_error_Some; congruence).
  rewrite F in N. apply nth_error_None in N. rewrite seq_length in N. lia.
Qed.
Lemma insert_at_full p i c c' : insert_at p i c = Some c' -> full c -> (i = length (verts c) -> find_vertex c p = None) -> full c'.
Proof.
  unfold ContourModel.insert_at. intros E F H. destruct (Nat.eqb_spec i (length (verts c))) as [->|N].
  - destruct (_ <? cap)%nat; [|discriminate]. injection E as <-. rewrite (H eq_refl). unfold full. cbn [verts vset]. rewrite app_length, F. cbn [length].
    rewrite Nat.add_1_r, seq_S. reflexivity.
  - destruct (_ <? i)%nat; [discriminate|]. injection E as <-. exact F.
Qed.
Lemma insert_edge2_full a b n c c' : sound -> complete -> valid c -> full c -> insert_edge2 a b n c = Some c' -> full c'.
Proof.
  intros So Co V F. unfold ContourModel.insert_edge2, ContourModel.unique_ids. destruct (psame tol a b) eqn:Es.
  { intros E. injection E as <-. exact F. }
  destruct (find_vertex c a) as [i|] eqn:Ea; destruct (find_vertex c b) as [j|] eqn:Eb.
  - destruct (Nat.eqb_spec i j) as [->|N]; [intros E; injection E as <-; exact F|]. apply Nat.eqb_neq in N. rewrite N.
    pose proof (find_in c a i V Ea) as Ha. pose proof (find_in c b j V Eb) as Hb. rewrite insert_at_old by exact Ha. cbn [and_then]. rewrite insert_at_old by exact Hb.
    intros E. injection E as <-. exact F.
  - pose proof (find_in c a i V Ea) as Ha. replace (i =? length (verts c))%nat with false by (symmetry; apply Nat.eqb_neq; lia).
    rewrite insert_at_old by exact Ha. cbn [and_then]. intros E. apply and_then_some in E as (c1 & E1 & E). injection E as <-.
    unfold full. cbn [verts vset]. apply (insert_at_full _ _ _ _ E1 F). intros _. exact Eb.
  - pose proof (find_in c b j V Eb) as Hb. replace (length (verts c) =? j)%nat with false by (symmetry; apply Nat.eqb_neq; lia).
    intros E. apply and_then_some in E as (c1 & E1 & E). pose proof (insert_at_full _ _ _ _ E1 F (fun _ => Ea)) as F1.
    assert (L : length (verts c1) = S (length (verts c))).
    { revert E1. unfold ContourModel.insert_at. rewrite Nat.eqb_refl. destruct (_ <? cap)%nat; [|discriminate]. intros E1. injection E1 as <-. cbn. rewrite app_length. cbn. lia. }
    rewrite insert_at_old in E by lia. cbn [and_then] in E. injection E as <-. exact F1.
  - replace (length (verts c) =? length (verts c) + 1)%nat with false by (symmetry; apply Nat.eqb_neq; lia).
    intros E. apply and_then_some in E as (c1 & E1 & E). pose proof (insert_at_full _ _ _ _ E1 F (fun _ => Ea)) as F1.
    assert (L : verts c1 = verts c ++ [a]).
    { revert E1. unfold ContourModel.insert_at. rewrite Nat.eqb_refl. destruct (_ <? cap)%nat; [|discriminate]. intros E1. injection E1 as <-. reflexivity. }
    apply and_then_some in E as (c2 & E2 & E). injection E as <-. unfold full. cbn [verts vset]. apply (insert_at_full _ _ _ _ E2 F1). intros _.
    destruct (find_vertex c1 b) as [k|] eqn:Ek; [|reflexivity]. exfalso. destruct (full_found c1 b k So F1 Ek) as (q & Eq & Hq). apply nth_error_In in Eq.
    rewrite L in Eq. apply in_app_iff in Eq as [I|[<-|[]]]; [|congruence].
    rewrite (full_not_found c b So Co F Eb q I) in Hq. discriminate.
Qed.

(** *** Collecting the edges *)
Definition total_edges (s : state) : nat := length (edges (pos s)) + length (edges (neg s)) + length (edges (ver s)).
Definition from_inputs (P : point2 -> Prop) (c : cont) : Prop := Forall P (verts c).
Definition unsplit (c : cont) : Prop := Forall (fun e => esplits e = []) (edges c).
Record coll (P : point2 -> Prop) (k : nat) (s : state) : Prop := {
  co_valid : valid (pos s) /\ valid (neg s) /\ valid (ver s);
  co_verts : (length (verts (pos s)) <= 2 * length (edges (pos s)) /\ length (verts (neg s)) <= 2 * length (edges (neg s)) /\ length (verts (ver s)) <= 2 * length (edges (ver s)))%nat;
  co_total : (total_edges s <= k)%nat;
  co_from : from_inputs P (pos s) /\ from_inputs P (neg s) /\ from_inputs P (ver s);
  co_full : sound -> complete -> full (pos s) /\ full (neg s) /\ full (ver s);
  co_fresh : unsplit (pos s) /\ unsplit (neg s) /\ unsplit (ver s) }.

Lemma insert_small a b n c P : valid c -> (length (verts c) <= 2 * length (edges c))%nat -> (2 * length (edges c) + 2 <= cap)%nat -> from_inputs P c -> P a -> P b ->
  unsplit c ->
  exists c', insert_edge2 a b n c = Some c' /\ valid c' /\ (length (verts c') <= 2 * length (edges c'))%nat /\ (length (edges c) <= length (edges c') <= S (length (edges c)))%nat /\
    from_inputs P c' /\ (sound -> complete -> full c -> full c') /\ unsplit c'.
Proof.
  intros V L C F Pa Pb Fr. pose proof (news_length c a b) as Ln. destruct (insert_edge2_ok a b n c V ltac:(lia)) as (c' & E & [[-> _]|I]).
  - exists c. split; [exact E|]. split; [exact V|]. split; [lia|]. split; [lia|]. split; [exact F|]. split; [auto|exact Fr].
  - exists c'. split; [exact E|]. destruct I as (i & j & Ee & Ev & _ & V' & _). split; [exact V'|]. rewrite Ee, Ev, !app_length. cbn [length].
    split; [lia|]. split; [lia|]. split.
    + unfold from_inputs. rewrite Ev. apply Forall_app. split; [exact F|]. apply Forall_forall. intros p I. apply news_in in I as [-> | ->]; assumption.
    + split; [intros So Co Fu; exact (insert_edge2_full a b n c c' So Co V Fu E)|]. unfold unsplit. rewrite Ee. apply Forall_app. split; [exact Fr|]. repeat constructor.
Qed.
Lemma insert_edge3_ok P k s p q n : coll P k s -> (2 * S k <= cap)%nat -> P (project pl p) -> P (project pl q) ->
  exists s', insert_edge3 (p, q, n) s = Some s' /\ coll P (S k) s'.
Proof.
  intros [[Vp [Vn Vv]] [Lp [Ln Lv]] T [Fp [Fn Fv]] Fu [Rp [Rn Rv]]] C Pp Pq. unfold ContourModel.insert_edge3.
  assert (G : exists a b, (if rltb (at_ (d1 pl) p) (at_ (d1 pl) q) then (project pl p, project pl q) else (project pl q, project pl p)) = (a, b) /\ P a /\ P b).
  { destruct (rltb _ _); eauto. }
  destruct G as (a & b & -> & Pa & Pb). unfold total_edges in T.
  assert (Same : coll P (S k) s) by (constructor; unfold total_edges; auto; lia).
  assert (Vert : exists s', (if rltb tol (Rabs (snd a - snd b)) then option_map (fun c => State (pos s) (neg s) c) (insert_edge2 a b (project pl n) (ver s)) else Some s) = Some s' /\ coll P (S k) s').
  { destruct (rltb tol (Rabs (snd a - snd b))); [|exists s; auto].
    destruct (insert_small a b (project pl n) (ver s) P Vv Lv ltac:(lia) Fv Pa Pb Rv) as (c & -> & V' & L' & E' & F' & S' & R'). cbn [option_map].
    eexists. split; [reflexivity|]. constructor; unfold total_edges; cbn [pos neg ver]; auto; try lia. intros So Co. destruct (Fu So Co) as (? & ? & ?). auto. }
  destruct (rltb tol (Rabs (fst a - fst b))); [|exact Vert].
  destruct (rltb zerotol (snd (project pl n))).
  { destruct (insert_small a b (project pl n) (pos s) P Vp Lp ltac:(lia) Fp Pa Pb Rp) as (c & -> & V' & L' & E' & F' & S' & R'). cbn [option_map].
    eexists. split; [reflexivity|]. constructor; unfold total_edges; cbn [pos neg ver]; auto; try lia. intros So Co. destruct (Fu So Co) as (? & ? & ?). auto. }
  destruct (rltb (snd (project pl n)) (- zerotol)); [|exact Vert].
  destruct (insert_small a b (project pl n) (neg s) P Vn Ln ltac:(lia) Fn Pa Pb Rn) as (c & -> & V' & L' & E' & F' & S' & R'). cbn [option_map].
  eexists. split; [reflexivity|]. constructor; unfold total_edges; cbn [pos neg ver]; auto; try lia. intros So Co. destruct (Fu So Co) as (? & ? & ?). auto.
Qed.
Lemma collect_ok P es : forall k s, coll P k s -> (2 * (k + length es) <= cap)%nat -> (forall p q n, In (p, q, n) es -> P (project pl p) /\ P (project pl q)) ->
  exists s', collect pl lookup cap es s = Some s' /\ coll P (k + length es) s'.
Proof.
  induction es as [|[[p q] n] es IH]; intros k s Co C Hp.
  - exists s. split; [reflexivity|]. cbn [length]. rewrite Nat.add_0_r. exact Co.
  - cbn [length] in *. destruct (Hp p q n (or_introl eq_refl)) as [Pp Pq].
    destruct (insert_edge3_ok P k s p q n Co ltac:(lia) Pp Pq) as (s1 & E & C1).
    destruct (IH (S k) s1 C1 ltac:(lia)) as (s2 & E2 & C2); [intros; eapply Hp; right; eassumption|].
    exists s2. split; [|replace (k + S (length es))%nat with (S k + length es)%nat by lia; exact C2].
    unfold collect in *. cbn [fold_left and_then]. rewrite E. exact E2.
Qed.
Lemma collect_start P : coll P 0 empty_state.
Proof. constructor; unfold total_edges, full, from_inputs, unsplit, valid; cbn; auto. Qed.

(** *** Splitting edges *)
(** The segments of an edge that is split at the points of a list. *)
Fixpoint chain (a : point2) (l : list point2) (b : point2) : list (point2 * point2) :=
  match l with [] => [(a, b)] | p :: l => (a, p) :: chain p l b end.
(** The segments of an edge with its normal, after the split. *)
Definition nseg (vs : list point2) (e : edge2) : (point2 * point2) * point2 := (seg vs e, enormal e).
Definition nsegs (c : cont) : list ((point2 * point2) * point2) := map (nseg (verts c)) (edges c).
Definition pieces (vs : list point2) (e : edge2) : list ((point2 * point2) * point2) :=
  map (fun s => (s, enormal e)) (chain (fst (seg vs e)) (sort_points (esplits e)) (snd (seg vs e))).
Definition is_split (e : edge2) : bool := match esplits e with [] => false | _ => true end.

Lemma nseg_app vs ws e : edge_valid (length vs) e -> nseg (vs ++ ws) e = nseg vs e.
Proof. intros H. unfold nseg. rewrite seg_app by exact H. reflexivity. Qed.
Lemma nsegs_app vs ws es : Forall (edge_valid (length vs)) es -> map (nseg (vs ++ ws)) es = map (nseg vs) es.
Proof. intros F. apply map_ext_in. intros e I. apply nseg_app. rewrite Forall_forall in F. exact (F _ I). Qed.

(** The edges between the split points, with the vertices they add. *)
Lemma split_middle_ok n l : forall vs, exists ws es, split_middle n l vs = (vs ++ ws, es) /\ Forall (edge_valid (length (vs ++ ws))) es /\ unsplit (Cont vs [] es) /\
  match l with
  | [] => es = []
  | a :: l => length es = length l /\ map (nseg (vs ++ ws)) es = map (fun s => (s, n)) (removelast (chain a l (0, 0)))
  end.
Proof.
  induction l as [|a l IH]; intros vs; [exists [], []; cbn; rewrite app_nil_r; repeat split; constructor|].
  destruct l as [|b l]; [exists [], []; cbn; rewrite app_nil_r; repeat split; constructor|].
  destruct (IH (vs ++ [a; b])) as (ws & es & E & V & U & L & M). cbn [split_middle] in *. rewrite E.
  exists ([a; b] ++ ws), (Edge2 (length vs) (length vs + 1) n [] :: es). rewrite <- app_assoc in *. split; [reflexivity|].
  split; [constructor; [|exact V]; rewrite !app_length; split; cbn [ev1 ev2 app length]; lia|]. split; [constructor; [reflexivity|exact U]|].
  split; [cbn [length]; lia|]. cbn [chain]. change (removelast ((a, b) :: chain b l (0, 0))) with (match chain b l (0, 0) with [] => [] | _ => (a, b) :: removelast (chain b l (0, 0)) end).
  assert (Ne : chain b l (0, 0) <> []) by (destruct l; discriminate). destruct (chain b l (0, 0)) as [|s ss] eqn:Ec; [congruence|]. rewrite <- Ec in *.
  cbn [map]. rewrite M. f_equal. unfold nseg, seg. cbn [ev1 ev2 enormal]. f_equal. rewrite nth_new0, nth_new. reflexivity.
Qed.
Lemma last_from {A} (l : list A) : forall p a, last (p :: l) a = last l p.
Proof. induction l as [|q l IH]; intros p a; [reflexivity|]. change (last (q :: l) a = last (q :: l) p). rewrite !IH. reflexivity. Qed.
Lemma chain_last a l b d : chain a l b = removelast (chain a l d) ++ [(last l a, b)].
Proof.
  revert a. induction l as [|p l IH]; intros a; [reflexivity|]. cbn [chain]. rewrite IH. change (removelast ((a, p) :: chain p l d)) with (match chain p l d with [] => [] | _ => (a, p) :: removelast (chain p l d) end).
  destruct (chain p l d) eqn:E; [destruct l; discriminate|]. rewrite <- E. cbn [app]. rewrite last_from. reflexivity.
Qed.
Lemma split_edge_ok e l vs : edge_valid (length vs) e -> l <> [] -> exists ws es, split_edge e l vs = (vs ++ ws, es) /\ Forall (edge_valid (length (vs ++ ws))) es /\
  unsplit (Cont vs [] es) /\ length es = S (length l) /\ map (nseg (vs ++ ws)) es = map (fun s => (s, enormal e)) (chain (fst (seg vs e)) l (snd (seg vs e))).
Proof.
  intros V N. destruct l as [|a l]; [congruence|]. unfold split_edge. destruct (split_middle_ok (enormal e) (a :: l) (vs ++ [a])) as (ws & es & E & Ve & U & L & M). rewrite E.
  exists ([a] ++ ws ++ [last (a :: l) a]), (Edge2 (ev1 e) (length vs) (enormal e) [] :: es ++ [Edge2 (length ((vs ++ [a]) ++ ws)) (ev2 e) (enormal e) []]).
  assert (Ev : ((vs ++ [a]) ++ ws) ++ [last (a :: l) a] = vs ++ [a] ++ ws ++ [last (a :: l) a]) by (rewrite <- !app_assoc; reflexivity).
  rewrite Ev. split; [reflexivity|]. destruct V as [V1 V2]. split.
  { constructor; [split; cbn [ev1 ev2]; rewrite !app_length; cbn [length]; lia|]. apply Forall_app. split.
    - rewrite <- Ev. revert Ve. apply Forall_impl. intros e'. apply edge_valid_le. rewrite (app_length ((vs ++ [a]) ++ ws)). lia.
    - constructor; [|constructor]. split; cbn [ev1 ev2]; rewrite !app_length; cbn [length]; lia. }
  split; [constructor; [reflexivity|]; apply Forall_app; split; [exact U|repeat constructor]|].
  split; [cbn [length]; rewrite app_length; cbn [length]; lia|].
  cbn [map chain]. f_equal.
  - unfold nseg, seg. cbn [ev1 ev2 enormal fst]. f_equal. rewrite app_nth1 by exact V1. rewrite nth_new0. reflexivity.
  - rewrite map_app. rewrite (chain_last a l _ (0, 0)), map_app. f_equal.
    + rewrite <- M, <- Ev. apply nsegs_app. exact Ve.
    + cbn [map]. f_equal. unfold nseg, seg. cbn [ev1 ev2 enormal snd]. f_equal. rewrite <- Ev at 1. rewrite nth_new0. cbn [nth]. rewrite app_nth1 by exact V2.
      rewrite last_from. reflexivity.
Qed.

Lemma pieces_app vs ws es : Forall (edge_valid (length vs)) es -> flat_map (pieces (vs ++ ws)) es = flat_map (pieces vs) es.
Proof. induction 1 as [|e es V _ IH]; [reflexivity|]. cbn [flat_map]. rewrite IH. f_equal. unfold pieces. rewrite seg_app by exact V. reflexivity. Qed.
Definition splits_of (es : list edge2) : nat := list_sum (map (fun e => length (esplits e)) es).
Lemma splits_of_cons e es : splits_of (e :: es) = (length (esplits e) + splits_of es)%nat.
Proof. reflexivity. Qed.
Lemma split_loop_ok (Hs : forall l, Permutation l (sort_points l)) todo : forall kept added vs,
  Forall (edge_valid (length vs)) todo -> Forall (edge_valid (length vs)) kept -> Forall (edge_valid (length vs)) added ->
  (length kept + length todo + length added + splits_of todo + 1 <= cap)%nat -> exists ws es,
  split_loop sort_points cap kept todo added vs = Some (es, vs ++ ws) /\ Forall (edge_valid (length (vs ++ ws))) es /\
  (unsplit (Cont vs [] kept) -> unsplit (Cont vs [] added) -> unsplit (Cont vs [] es)) /\
  map (nseg (vs ++ ws)) es = map (nseg vs) kept ++ map (nseg vs) (List.filter (fun e => negb (is_split e)) todo) ++ map (nseg vs) added ++ flat_map (pieces vs) (List.filter is_split todo).
Proof.
  induction todo as [|e todo IH]; intros kept added vs Vt Vk Va C.
  - exists [], (kept ++ added). cbn [split_loop filter flat_map]. rewrite app_nil_r. split; [reflexivity|]. split; [apply Forall_app; auto|].
    split; [intros U1 U2; apply Forall_app; auto|]. rewrite map_app, app_nil_r. reflexivity.
  - inversion Vt as [|? ? Ve Vt']; subst. rewrite splits_of_cons in C. cbn [length] in C. cbn [split_loop]. destruct (esplits e) as [|s0 ss] eqn:Es.
    + destruct (IH (kept ++ [e]) added vs Vt' ltac:(apply Forall_app; auto) Va) as (ws & es & E & V & U & M).
      { rewrite app_length. cbn [length] in *. lia. }
      exists ws, es. split; [exact E|]. split; [exact V|]. split.
      { intros U1 U2. apply U; [|exact U2]. apply Forall_app. split; [exact U1|]. constructor; [exact Es|constructor]. }
      rewrite M. unfold is_split. cbn [List.filter]. rewrite Es. cbn [negb]. rewrite map_app, <- app_assoc. reflexivity.
    + rewrite <- Es in *. assert (Ls : length (sort_points (esplits e)) = length (esplits e)) by (symmetry; apply Permutation_length, Hs).
      assert (Nl : sort_points (esplits e) <> []) by (intros Z; rewrite Z, Es in Ls; discriminate).
      replace (length kept + length (e :: todo) + length added + (length (sort_points (esplits e)) + 1) <=? cap)%nat with true by (symmetry; apply Nat.leb_le; cbn [length]; lia).
      destruct (split_edge_ok e (sort_points (esplits e)) vs Ve Nl) as (ws1 & es1 & E1 & V1 & U1 & L1 & M1). rewrite E1.
      destruct (IH kept (added ++ es1) (vs ++ ws1)) as (ws & es & E & V & U & M).
      * revert Vt'. apply Forall_impl. intros f. apply edge_valid_le. rewrite app_length. lia.
      * revert Vk. apply Forall_impl. intros f. apply edge_valid_le. rewrite app_length. lia.
      * apply Forall_app. split; [|exact V1]. revert Va. apply Forall_impl. intros f. apply edge_valid_le. rewrite app_length. lia.
      * rewrite app_length. lia.
      * exists (ws1 ++ ws), es. rewrite app_assoc. split; [exact E|]. split; [exact V|]. split.
        { intros U2 U3. apply U; [exact U2|]. apply Forall_app. split; [exact U3|exact U1]. }
        rewrite M. rewrite (nsegs_app vs ws1 kept Vk). f_equal.
        assert (Ei : is_split e = true) by (unfold is_split; rewrite Es; reflexivity). cbn [List.filter]. rewrite Ei. cbn [negb].
        rewrite (nsegs_app vs ws1 (List.filter _ todo)) by (apply Forall_forall; intros f I; apply filter_In in I as [I _]; rewrite Forall_forall in Vt'; exact (Vt' _ I)). f_equal.
        rewrite map_app, (nsegs_app vs ws1 added Va), M1. cbn [flat_map]. rewrite <- app_assoc. f_equal. f_equal. apply pieces_app. apply Forall_forall; intros f I; apply filter_In in I as [I _]; rewrite Forall_forall in Vt'; exact (Vt' _ I).
Qed.

(** *** Setting split points *)
(** The split points with the numbers of their edges, distributed to the edges. *)
Fixpoint spread (i : nat) (ts : list (nat * point2)) (es : list edge2) : list edge2 :=
  match es with
  | [] => []
  | e :: es => Edge2 (ev1 e) (ev2 e) (enormal e) (esplits e ++ map snd (List.filter (fun t => fst t =? i)%nat ts)) :: spread (S i) ts es
  end.
Lemma spread_nil i es : spread i [] es = es.
Proof. revert i. induction es as [|e es IH]; intros i; [reflexivity|]. cbn [spread filter map]. rewrite IH, app_nil_r. destruct e; reflexivity. Qed.
Lemma spread_app i ts ts' es : spread i (ts ++ ts') es = spread i ts' (spread i ts es).
Proof. revert i. induction es as [|e es IH]; intros i; [reflexivity|]. cbn [spread]. rewrite IH. cbn [ev1 ev2 enormal esplits]. rewrite filter_app, map_app, app_assoc. reflexivity. Qed.
Lemma spread_small i k q es : (k < i)%nat -> spread i [(k, q)] es = es.
Proof.
  revert i. induction es as [|e es IH]; intros i L; [reflexivity|]. cbn [spread List.filter fst]. replace (k =? i)%nat with false by (symmetry; apply Nat.eqb_neq; lia). cbn [map].
  rewrite IH by lia. rewrite app_nil_r. destruct e; reflexivity.
Qed.
Lemma add_spread k q es : forall i, add_split k q es = spread i [(i + k, q)%nat] es.
Proof.
  revert k. induction es as [|e es IH]; intros k i; [destruct k; reflexivity|]. cbn [spread List.filter fst]. destruct k as [|k].
  - rewrite Nat.add_0_r, Nat.eqb_refl. cbn [add_split map snd]. rewrite spread_small by lia. reflexivity.
  - cbn [add_split]. replace (i + S k =? i)%nat with false by (symmetry; apply Nat.eqb_neq; lia). cbn [map]. rewrite app_nil_r, (IH k (S i)).
    replace (S i + k)%nat with (i + S k)%nat by lia. destruct e; reflexivity.
Qed.
Lemma spread_shape vs i ts es : map (nseg vs) (spread i ts es) = map (nseg vs) es.
Proof. revert i. induction es as [|e es IH]; intros i; [reflexivity|]. cbn [spread map]. rewrite IH. reflexivity. Qed.
Lemma spread_segs vs i ts es : map (seg vs) (spread i ts es) = map (seg vs) es.
Proof. revert i. induction es as [|e es IH]; intros i; [reflexivity|]. cbn [spread map]. rewrite IH. reflexivity. Qed.
Lemma spread_valid n i ts es : Forall (edge_valid n) es -> Forall (edge_valid n) (spread i ts es).
Proof. intros F. revert i. induction F as [|e es V _ IH]; intros i; constructor; [exact V|apply IH]. Qed.
Lemma spread_length i ts es : length (spread i ts es) = length es.
Proof. revert i. induction es as [|e es IH]; intros i; [reflexivity|]. cbn [spread length]. rewrite IH. reflexivity. Qed.
Lemma spread_one i k q es : (splits_of (spread i [(k, q)] es) <= splits_of es + 1)%nat.
Proof.
  revert i. induction es as [|e es IH]; intros i; [cbn; lia|]. cbn [spread]. rewrite !splits_of_cons. cbn [esplits List.filter fst].
  destruct (Nat.eqb_spec k i) as [->|N]; cbn [map]; rewrite app_length; cbn [length snd]; [rewrite spread_small by lia; lia|specialize (IH (S i)); lia].
Qed.
Lemma spread_splits i ts es : (splits_of (spread i ts es) <= splits_of es + length ts)%nat.
Proof.
  revert es. induction ts as [|[k q] ts IH]; intros es; [rewrite spread_nil; lia|]. change ((k, q) :: ts) with ([(k, q)] ++ ts). rewrite spread_app, app_length.
  specialize (IH (spread i [(k, q)] es)). pose proof (spread_one i k q es). cbn [length]. lia.
Qed.

(** The edge and the split point of one vertex. *)
Definition target (up : bool) (lo ld : list (point2 * point2)) (p : point2) : option (nat * point2) :=
  split_target pl up p 0 ld (barrier pl up p lo) None.
Definition targets (up : bool) (lo ld : list (point2 * point2)) (ps : list point2) : list (nat * point2) :=
  flat_map (fun p => match target up lo ld p with Some t => [t] | None => [] end) ps.
Lemma targets_length up lo ld ps : (length (targets up lo ld ps) <= length ps)%nat.
Proof. induction ps as [|p ps IH]; [cbn; lia|]. cbn [targets flat_map]. rewrite app_length. fold (targets up lo ld ps). destruct (target up lo ld p); cbn; lia. Qed.
Definition with_splits (ts : list (nat * point2)) (c : cont) : cont := Cont (verts c) (vset c) (spread 0 ts (edges c)).
Lemma with_splits_valid ts c : valid c -> valid (with_splits ts c).
Proof. intros [H1 H2]. split; [apply spread_valid; exact H1|exact H2]. Qed.
Lemma with_splits_segs ts c : segs (with_splits ts c) = segs c.
Proof. apply spread_segs. Qed.
Lemma with_splits_nsegs ts c : nsegs (with_splits ts c) = nsegs c.
Proof. apply spread_shape. Qed.
Lemma set_split_ok up origin p dest : valid origin -> valid dest ->
  set_split pl up origin p dest = Some (with_splits (targets up (segs origin) (segs dest) [p]) dest).
Proof.
  intros Vo Vd. unfold set_split. rewrite (each_ends origin Vo), (each_ends dest Vd). cbn [and_then]. f_equal. unfold targets. cbn [flat_map]. rewrite app_nil_r. unfold target.
  destruct (split_target _ _ _ _ _ _ _) as [[i q]|]; unfold with_splits; [rewrite (add_spread i q (edges dest) 0); reflexivity|]. rewrite spread_nil. destruct dest; reflexivity.
Qed.
Lemma set_split_fold up origin ps : forall dest, valid origin -> valid dest ->
  fold_left (fun d p => and_then d (set_split pl up origin p)) ps (Some dest) = Some (with_splits (targets up (segs origin) (segs dest) ps) dest).
Proof.
  induction ps as [|p ps IH]; intros dest Vo Vd.
  - cbn [fold_left targets flat_map]. unfold with_splits. rewrite spread_nil. destruct dest; reflexivity.
  - cbn [fold_left and_then]. rewrite set_split_ok by assumption. rewrite IH; [|exact Vo|apply with_splits_valid; exact Vd]. rewrite with_splits_segs. f_equal.
    unfold with_splits. cbn [verts vset edges]. rewrite <- spread_app. change (p :: ps) with ([p] ++ ps). unfold targets. rewrite flat_map_app. reflexivity.
Qed.
Lemma set_splits_ok s : valid (pos s) -> valid (neg s) -> set_splits pl s =
  Some (State (with_splits (targets true (segs (neg s)) (segs (pos s)) (verts (neg s))) (pos s)) (with_splits (targets false (segs (pos s)) (segs (neg s)) (verts (pos s))) (neg s)) (ver s)).
Proof.
  intros Vp Vn. unfold set_splits. rewrite set_split_fold by assumption. cbn [and_then].
  rewrite set_split_fold; [|apply with_splits_valid; exact Vn|exact Vp]. rewrite with_splits_segs. reflexivity.
Qed.

(** *** The split of one container *)
Lemma split_edges_ok (Hs : forall l, Permutation l (sort_points l)) c : valid c -> (length (edges c) + splits_of (edges c) + 1 <= cap)%nat -> exists c',
  split_edges sort_points cap c = Some c' /\ Forall (edge_valid (length (verts c'))) (edges c') /\ unsplit c' /\ (exists ws, verts c' = verts c ++ ws) /\
  nsegs c' = map (nseg (verts c)) (List.filter (fun e => negb (is_split e)) (edges c)) ++ flat_map (pieces (verts c)) (List.filter is_split (edges c)).
Proof.
  intros [V _] L. destruct (split_loop_ok Hs (edges c) [] [] (verts c) V ltac:(constructor) ltac:(constructor)) as (ws & es & E & Ve & U & M); [cbn [length]; lia|].
  unfold split_edges. rewrite E. cbn [option_map]. eexists. split; [reflexivity|]. cbn [verts edges fst snd]. split; [exact Ve|].
  split; [apply U; constructor|]. split; [eauto|]. unfold nsegs. cbn [verts edges]. rewrite M. reflexivity.
Qed.

(** *** The vertices on the upper boundary *)
Lemma unique_from_incl {A} (same : A -> A -> bool) l : forall a, incl (unique_from same a l) (a :: l) /\ (length (unique_from same a l) <= S (length l))%nat.
Proof.
  induction l as [|b l IH]; intros a; [split; [apply incl_refl|cbn; lia]|]. cbn [unique_from]. destruct (same a b).
  - destruct (IH a) as [I L]. split; [|cbn [length]; lia]. intros x Hx. apply I in Hx. cbn [In] in *. tauto.
  - destruct (IH b) as [I L]. split; [|cbn [length]; lia]. intros x [->|Hx]; [left; reflexivity|]. right. exact (I x Hx).
Qed.
Lemma unique_incl {A} (same : A -> A -> bool) l : incl (unique same l) l /\ (length (unique same l) <= length l)%nat.
Proof. destruct l as [|a l]; [split; [apply incl_refl|cbn; lia]|]. exact (unique_from_incl same l a). Qed.
Lemma filter_len {A} (f : A -> bool) l : (length (List.filter f l) <= length l)%nat.
Proof. induction l as [|a l IH]; [cbn; lia|]. cbn [List.filter length]. destruct (f a); cbn [length]; lia. Qed.
Lemma remove_incl vs l : incl (remove_duplicates pl vs l) l /\ (length (remove_duplicates pl vs l) <= length l)%nat.
Proof. apply unique_incl. Qed.
Lemma remove_vertical_incl vs l : incl (remove_vertical_duplicates pl vs l) l /\ (length (remove_vertical_duplicates pl vs l) <= length l)%nat.
Proof.
  unfold remove_vertical_duplicates. set (u := unique _ l). destruct (unique_incl (fun e f : edge2 * bool => Bool.eqb (rltb (fst (enormal (fst e))) 0) (rltb (fst (enormal (fst f))) 0) && rltb (Rabs (x1 vs (fst e) - x1 vs (fst f))) tol) l) as [I L]. fold u in I, L.
  split; [intros x Hx; apply filter_In in Hx as [Hx _]; exact (I x Hx)|]. etransitivity; [apply filter_len|exact L].
Qed.

(** An edge with exactly one end at the upper boundary. *)
Definition tops (c : cont) (q : edge2 * bool) : Prop :=
  In (fst q) (edges c) /\ on_top pl (fst (seg (verts c) (fst q))) = snd q /\ on_top pl (snd (seg (verts c) (fst q))) = negb (snd q).
Definition top_of (c : cont) (e : edge2) : list (edge2 * bool) :=
  if xorb (on_top pl (fst (seg (verts c) e))) (on_top pl (snd (seg (verts c) e))) then [(e, on_top pl (fst (seg (verts c) e)))] else [].
Lemma top_of_tops c q es : In q (concat (map (top_of c) es)) -> exists e, In e es /\ q = (e, on_top pl (fst (seg (verts c) e))) /\ on_top pl (snd (seg (verts c) e)) = negb (snd q).
Proof.
  intros I. apply in_concat in I as (l & Il & Iq). apply in_map_iff in Il as (e & <- & Ie). unfold top_of in Iq. exists e. split; [exact Ie|].
  destruct (on_top pl (fst (seg (verts c) e))), (on_top pl (snd (seg (verts c) e))); cbn [xorb] in Iq; destruct Iq as [<-|[]] || destruct Iq; split; reflexivity.
Qed.
Lemma top_of_length c es : (length (concat (map (top_of c) es)) <= length es)%nat.
Proof.
  induction es as [|e es IH]; [cbn; lia|]. cbn [map concat]. rewrite app_length. cbn [length].
  assert (length (top_of c e) <= 1)%nat by (unfold top_of; destruct (xorb _ _); cbn; lia). lia.
Qed.
Lemma intersecting_eq c : valid c -> intersecting pl sort_edges c = Some (sort_edges (verts c) (concat (map (top_of c) (edges c)))).
Proof.
  intros [V _]. unfold intersecting. rewrite (each_map (at_top pl c) (top_of c)); [reflexivity|].
  revert V. apply Forall_impl. intros e Ve. unfold at_top. rewrite ends_seg by exact Ve. reflexivity.
Qed.
Lemma intersecting_ok (He : forall vs l, Permutation l (sort_edges vs l)) c : valid c -> exists l,
  intersecting pl sort_edges c = Some l /\ Forall (tops c) l /\ (length l <= length (edges c))%nat.
Proof.
  intros V. rewrite intersecting_eq by exact V. eexists. split; [reflexivity|]. split.
  - eapply Permutation_Forall; [apply He|]. apply Forall_forall. intros q I. apply top_of_tops in I as (e & Ie & -> & E). repeat split; assumption.
  - rewrite <- (Permutation_length (He (verts c) _)). apply top_of_length.
Qed.

(** The loop over the three lists ends, and what it collects. *)
Definition collects (P : R * bool -> Prop) (w : R * bool -> nat) (f : edge2 * bool -> list (R * bool)) (k : nat) (l : list (edge2 * bool)) : Prop :=
  forall e, In e l -> (length (f e) <= 1)%nat /\ Forall P (f e) /\ (list_sum (map w (f e)) <= k)%nat.
Lemma collects_tl P w f k b l : collects P w f k l -> collects P w f k (advance b l).
Proof. intros H e I. apply H. destruct b; [|exact I]. destruct l; [destruct I|right; exact I]. Qed.
Lemma advance_length {A} b (l : list A) : l <> [] \/ b = false -> (length (advance b l) + Nat.b2n b = length l)%nat.
Proof. destruct b, l; cbn; intros [H|H]; try congruence; lia. Qed.
Lemma found_nonempty vs l m : found pl (top_distance pl vs l) m = true -> l <> [].
Proof. destruct l; [discriminate|discriminate]. Qed.
Lemma found_some a b c : (a <> None \/ b <> None \/ c <> None) ->
  let m := omin a (omin b c) in found pl a m = true \/ found pl b m = true \/ found pl c m = true.
Proof.
  intros H m. pose proof snap_pos as T. unfold m, omin, found. destruct a as [x|], b as [y|], c as [z|]; rewrite ?rltb_true; try (destruct H as [H|[H|H]]; congruence).
  all: unfold Rmin; repeat match goal with |- context [Rle_dec ?u ?v] => destruct (Rle_dec u v) end; lra.
Qed.
Definition merge_step (s : state) (lp ln lv : list (edge2 * bool)) (k : list (edge2 * bool) -> list (edge2 * bool) -> list (edge2 * bool) -> list (R * bool) -> option (list (R * bool))) acc :=
  let dp := top_distance pl (verts (pos s)) lp in
  let dn := top_distance pl (verts (neg s)) ln in
  let dv := top_distance pl (verts (ver s)) lv in
  let m := omin dp (omin dn dv) in
  let fp := found pl dp m in
  let fn := found pl dn m in
  let fv := found pl dv m in
  k (advance fp lp) (advance fn ln) (advance fv lv)
    (acc ++ if (1 <? Nat.b2n fp + Nat.b2n fn + Nat.b2n fv)%nat then []
            else if fp then match lp with e :: _ => top_positive (verts (pos s)) e | [] => [] end
            else if fn then match ln with e :: _ => top_negative (verts (neg s)) e | [] => [] end
            else match lv with e :: _ => top_vertical (verts (ver s)) e | [] => [] end).
Lemma merge_unfold fuel s lp ln lv acc : lp <> [] \/ ln <> [] \/ lv <> [] ->
  merge_tops pl (S fuel) s lp ln lv acc = merge_step s lp ln lv (merge_tops pl fuel s) acc.
Proof. intros H. destruct lp, ln, lv; try reflexivity. destruct H as [H|[H|H]]; congruence. Qed.
Lemma merge_ok P w s : forall fuel lp ln lv acc,
  collects P w (top_positive (verts (pos s))) 0 lp -> collects P w (top_negative (verts (neg s))) 1 ln -> collects P w (top_vertical (verts (ver s))) 1 lv ->
  (length lp + length ln + length lv <= fuel)%nat -> exists new,
  merge_tops pl fuel s lp ln lv acc = Some (acc ++ new) /\ Forall P new /\ (length new <= length lp + length ln + length lv)%nat /\ (list_sum (map w new) <= length ln + length lv)%nat.
Proof.
  induction fuel as [|fuel IH]; intros lp ln lv acc Cp Cn Cv F.
  { destruct lp, ln, lv; cbn [length] in F; try lia. exists []. cbn [merge_tops]. rewrite app_nil_r. repeat split; [constructor|cbn; lia|cbn; lia]. }
  assert (D : (lp = [] /\ ln = [] /\ lv = []) \/ (lp <> [] \/ ln <> [] \/ lv <> [])).
  { destruct lp; [destruct ln; [destruct lv; [left; auto|]|]|]; right; [right; right|right; left|left]; discriminate. }
  destruct D as [(-> & -> & ->)|D].
  { exists []. cbn [merge_tops]. rewrite app_nil_r. repeat split; [constructor|cbn; lia|cbn; lia]. }
  rewrite merge_unfold by exact D. unfold merge_step. cbv zeta.
  set (dp := top_distance pl (verts (pos s)) lp). set (dn := top_distance pl (verts (neg s)) ln). set (dv := top_distance pl (verts (ver s)) lv).
  set (m := omin dp (omin dn dv)).
  assert (Dp : found pl dp m = true -> lp <> []) by apply found_nonempty. assert (Dn : found pl dn m = true -> ln <> []) by apply found_nonempty. assert (Dv : found pl dv m = true -> lv <> []) by apply found_nonempty.
  assert (S1 : found pl dp m = true \/ found pl dn m = true \/ found pl dv m = true).
  { apply found_some. destruct D as [D|[D|D]]; [left; unfold dp; destruct lp; [congruence|discriminate]|right; left; unfold dn; destruct ln; [congruence|discriminate]|right; right; unfold dv; destruct lv; [congruence|discriminate]]. }
  set (fp := found pl dp m) in *. set (fn := found pl dn m) in *. set (fv := found pl dv m) in *. clearbody fp fn fv.
  assert (Ap := advance_length fp lp ltac:(destruct fp; auto)). assert (An := advance_length fn ln ltac:(destruct fn; auto)). assert (Av := advance_length fv lv ltac:(destruct fv; auto)).
  match goal with |- context [acc ++ ?n] => set (new1 := n) end.
  destruct (IH (advance fp lp) (advance fn ln) (advance fv lv) (acc ++ new1) (collects_tl _ _ _ _ _ _ Cp) (collects_tl _ _ _ _ _ _ Cn) (collects_tl _ _ _ _ _ _ Cv)) as (new & E & Pn & Ln & Wn).
  { destruct fp, fn, fv; cbn [Nat.b2n] in *; lia. }
  exists (new1 ++ new). rewrite <- app_assoc in E. split; [exact E|].
  assert (N : Forall P new1 /\ (length new1 <= Nat.b2n fp + Nat.b2n fn + Nat.b2n fv)%nat /\ (list_sum (map w new1) <= Nat.b2n fn + Nat.b2n fv)%nat).
  { unfold new1. destruct (1 <? Nat.b2n fp + Nat.b2n fn + Nat.b2n fv)%nat; [repeat split; [constructor|cbn; lia|cbn; lia]|].
    destruct fp; [|destruct fn; [|]].
    - destruct lp as [|e lp]; [destruct (Dp eq_refl); reflexivity|]. destruct (Cp e (or_introl eq_refl)) as (H1 & H2 & H3). repeat split; [exact H2|cbn [Nat.b2n]; lia|lia].
    - destruct ln as [|e ln]; [destruct (Dn eq_refl); reflexivity|]. destruct (Cn e (or_introl eq_refl)) as (H1 & H2 & H3). repeat split; [exact H2|cbn [Nat.b2n]; lia|cbn [Nat.b2n]; lia].
    - destruct fv; [|destruct S1 as [S1|[S1|S1]]; discriminate]. destruct lv as [|e lv]; [destruct (Dv eq_refl); reflexivity|].
      destruct (Cv e (or_introl eq_refl)) as (H1 & H2 & H3). repeat split; [exact H2|cbn [Nat.b2n]; lia|cbn [Nat.b2n]; lia]. }
  destruct N as (N1 & N2 & N3). split; [apply Forall_app; auto|]. rewrite app_length, map_app, list_sum_app. lia.
Qed.

(** The x positions of the collected vertices. *)
Lemma x1_seg vs e : x1 vs e = fst (fst (seg vs e)).
Proof. reflexivity. Qed.
Lemma x2_seg vs e : x2 vs e = fst (snd (seg vs e)).
Proof. reflexivity. Qed.
Lemma seg_in c e : valid c -> In e (edges c) -> In (fst (seg (verts c) e)) (verts c) /\ In (snd (seg (verts c) e)) (verts c).
Proof. intros [V _] I. rewrite Forall_forall in V. destruct (V e I) as [V1 V2]. split; apply nth_In; assumption. Qed.
Lemma top_positive_shape vs q : top_positive vs q = [] \/ exists b, top_positive vs q = [((if snd q then x1 vs (fst q) else x2 vs (fst q)), b)].
Proof. unfold top_positive. destruct (snd q); destruct (rltb _ _); eauto. Qed.
Lemma top_negative_shape vs q : top_negative vs q = [] \/ exists b, top_negative vs q = [((if snd q then x1 vs (fst q) else x2 vs (fst q)), b)].
Proof. unfold top_negative. destruct (snd q); destruct (rltb _ _); eauto. Qed.

Lemma top_vertices_ok (He : forall vs l, Permutation l (sort_edges vs l)) (Px : R -> Prop) (w : R * bool -> nat) s :
  valid (pos s) -> valid (neg s) -> valid (ver s) ->
  (forall v, In v (verts (pos s)) \/ In v (verts (neg s)) \/ In v (verts (ver s)) -> Px (fst v)) -> Px (left1 pl) -> Px (right1 pl) ->
  (forall t, (w t <= 1)%nat) -> (forall v b, In v (verts (pos s)) -> on_top pl v = true -> w (fst v, b) = 0%nat) -> exists l b,
  top_vertices pl lookup sort_edges s = Some (l, b) /\ Forall (fun t => Px (fst t)) l /\ (length l <= total_edges s + 2)%nat /\
  (list_sum (map w l) <= length (edges (neg s)) + length (edges (ver s)) + 2)%nat.
Proof.
  intros Vp Vn Vv HP Pl Pr W W0. unfold top_vertices.
  destruct (intersecting_ok He (pos s) Vp) as (ip & -> & Tp & Lp). destruct (intersecting_ok He (neg s) Vn) as (ineg & -> & Tn & Ln). destruct (intersecting_ok He (ver s) Vv) as (iv & -> & Tv & Lv).
  cbn [and_then]. cbv zeta. rewrite Forall_forall in Tp, Tn, Tv.
  destruct (remove_incl (verts (pos s)) ip) as [Ip Jp]. destruct (remove_incl (verts (neg s)) ineg) as [In' Jn]. destruct (remove_vertical_incl (verts (ver s)) iv) as [Iv Jv].
  set (lp := remove_duplicates pl (verts (pos s)) ip) in *. set (ln := remove_duplicates pl (verts (neg s)) ineg) in *. set (lv := remove_vertical_duplicates pl (verts (ver s)) iv) in *.
  set (cl := negb (exists_somewhere lookup s (left1 pl, top2 pl))). set (cr := negb (exists_somewhere lookup s (right1 pl, top2 pl))).
  destruct (merge_ok (fun t => Px (fst t)) w s (length lp + length ln + length lv) lp ln lv (if cl then [(left1 pl, true)] else [])) as (new & E & Pn & Nl & Nw).
  - intros q Hq. apply Ip, Tp in Hq as (Ie & T1 & T2). destruct (seg_in (pos s) (fst q) Vp Ie) as [I1 I2].
    destruct (top_positive_shape (verts (pos s)) q) as [->|[b ->]]; [repeat split; [cbn; lia|constructor|cbn; lia]|].
    split; [cbn; lia|]. split; [constructor; [|constructor]|].
    + cbn [fst]. destruct (snd q); [rewrite x1_seg|rewrite x2_seg]; apply HP; left; assumption.
    + cbn [map list_sum fold_right]. destruct (snd q); [rewrite x1_seg|rewrite x2_seg]; rewrite W0; auto; lia.
  - intros q Hq. apply In', Tn in Hq as (Ie & T1 & T2). destruct (seg_in (neg s) (fst q) Vn Ie) as [I1 I2].
    destruct (top_negative_shape (verts (neg s)) q) as [->|[b ->]]; [repeat split; [cbn; lia|constructor|cbn; lia]|].
    split; [cbn; lia|]. split; [constructor; [|constructor]|].
    + cbn [fst]. destruct (snd q); [rewrite x1_seg|rewrite x2_seg]; apply HP; right; left; assumption.
    + cbn [map list_sum fold_right]. pose proof (W (if snd q then x1 (verts (neg s)) (fst q) else x2 (verts (neg s)) (fst q), b)). lia.
  - intros q Hq. apply Iv, Tv in Hq as (Ie & T1 & T2). destruct (seg_in (ver s) (fst q) Vv Ie) as [I1 I2].
    unfold top_vertical. split; [cbn; lia|]. split; [constructor; [|constructor]|].
    + cbn [fst]. rewrite x1_seg. apply HP. right; right; assumption.
    + cbn [map list_sum fold_right]. pose proof (W (x1 (verts (ver s)) (fst q), rltb (fst (enormal (fst q))) zerotol)). lia.
  - lia.
  - rewrite E. cbn [and_then]. set (l := (if cl then [(left1 pl, true)] else []) ++ new).
    set (r := cr && match rev l with [] => false | q :: _ => rltb tol (Rabs (fst q - right1 pl)) end).
    exists (if r then l ++ [(right1 pl, false)] else l), (cl && r). split; [reflexivity|].
    assert (Pl' : Forall (fun t => Px (fst t)) l) by (apply Forall_app; split; [destruct cl; repeat constructor; exact Pl|exact Pn]).
    assert (Ll : (length l <= total_edges s + 1)%nat) by (unfold l, total_edges; rewrite app_length; destruct cl; cbn [length]; lia).
    assert (Wl : (list_sum (map w l) <= length (edges (neg s)) + length (edges (ver s)) + 1)%nat).
    { unfold l. rewrite map_app, list_sum_app. pose proof (W (left1 pl, true)). destruct cl; cbn [map list_sum fold_right]; lia. }
    destruct r.
    + split; [apply Forall_app; split; [exact Pl'|repeat constructor; exact Pr]|]. rewrite app_length, map_app, list_sum_app. pose proof (W (right1 pl, false)). cbn [length map list_sum fold_right]. lia.
    + split; [exact Pl'|]. lia.
Qed.

(** *** The edges on the upper boundary *)
Fixpoint top_cost (w : R * bool -> nat) (l : list (R * bool)) : nat :=
  match l with
  | a :: ((b :: _) as l') => (if snd a && negb (snd b) then w a + w b else 0) + top_cost w l'
  | _ => 0
  end.
Lemma top_cost_le w l : (top_cost w l <= list_sum (map w l))%nat /\ (match l with a :: l' => snd a = false -> (top_cost w l <= list_sum (map w l'))%nat | [] => True end).
Proof.
  induction l as [|a l IH]; [split; [cbn; lia|exact I]|]. destruct l as [|b l]; [split; [|intros _]; cbn; lia|].
  destruct IH as [I1 I2]. change (top_cost w (a :: b :: l)) with ((if snd a && negb (snd b) then w a + w b else 0) + top_cost w (b :: l))%nat.
  change (list_sum (map w (a :: b :: l))) with (w a + list_sum (map w (b :: l)))%nat. change (list_sum (map w (b :: l))) with (w b + list_sum (map w l))%nat in *.
  destruct (snd a), (snd b); cbn [andb negb]; (split; [|intros Z; try discriminate Z]); try lia.
Qed.
(** What holds of the positive container: an invariant kept by each insertion, in which the vertices of weight 0 are found. *)
Section Tops.
Variable w : R * bool -> nat.
Variable ext : cont -> Prop.
Hypothesis ext_found : forall c t, valid c -> ext c -> w t = 0%nat -> find_vertex c (fst t, top2 pl) <> None.
Hypothesis ext_insert : forall c c' a b, valid c -> ext c -> insert_edge2 a b (0, 1) c = Some c' -> (c' = c \/ inserted a b (0, 1) c c') -> ext c'.
Variable P : point2 -> Prop.
Definition pgood (c : cont) : Prop := valid c /\ ext c /\ Forall P (verts c) /\ unsplit c.
Lemma insert_top_ok a b s : pgood (pos s) -> (length (verts (pos s)) + (w a + w b) <= cap)%nat -> (w a <= 1)%nat -> (w b <= 1)%nat -> P (fst a, top2 pl) -> P (fst b, top2 pl) -> exists c,
  insert_top pl lookup cap (fst a) (fst b) s = Some (State c (neg s) (ver s)) /\ pgood c /\ (length (verts c) <= length (verts (pos s)) + (w a + w b))%nat /\
  (length (edges c) <= length (edges (pos s)) + 1)%nat.
Proof.
  intros (V & E & F & U) C Wa Wb Pa Pb.
  assert (N : forall t, (w t <= 1)%nat -> (length (new_of (pos s) (fst t, top2 pl)) <= w t)%nat).
  { intros t Wt. unfold new_of. destruct (find_vertex (pos s) (fst t, top2 pl)) eqn:Ef; [cbn; lia|]. destruct (w t) as [|[|]] eqn:Ew; [|cbn; lia|lia]. destruct (ext_found _ t V E Ew Ef). }
  assert (L : (length (news (pos s) (fst a, top2 pl) (fst b, top2 pl)) <= w a + w b)%nat).
  { unfold news. rewrite app_length. pose proof (N a Wa). pose proof (N b Wb). lia. }
  destruct (insert_edge2_ok (fst a, top2 pl) (fst b, top2 pl) (0, 1) (pos s) V ltac:(lia)) as (c & Ec & I).
  exists c. unfold insert_top. rewrite Ec. split; [reflexivity|].
  assert (E' : ext c) by (eapply ext_insert; [exact V|exact E|exact Ec|]; destruct I as [[-> _]|I]; [left; reflexivity|right; exact I]).
  destruct I as [[-> _]|I]; [split; [repeat split; assumption || apply V|lia]|]. destruct I as (i & j & Ee & Ev & _ & V' & _).
  split.
  - repeat split; [apply V'|apply V'|exact E'| |].
    + rewrite Ev. apply Forall_app. split; [exact F|]. apply Forall_forall. intros p Ip. apply news_in in Ip as [-> | ->]; assumption.
    + unfold unsplit. rewrite Ee. apply Forall_app. split; [exact U|repeat constructor].
  - rewrite Ev, Ee, !app_length. cbn [length]. lia.
Qed.
Lemma insert_tops_ok l : forall s, pgood (pos s) -> (length (verts (pos s)) + top_cost w l <= cap)%nat -> (forall t, In t l -> (w t <= 1)%nat /\ P (fst t, top2 pl)) -> exists c,
  insert_tops pl lookup cap l s = Some (State c (neg s) (ver s)) /\ pgood c /\ (length (verts c) <= length (verts (pos s)) + top_cost w l)%nat /\
  (2 * length (edges c) <= 2 * length (edges (pos s)) + top_cost (fun _ => 1%nat) l)%nat.
Proof.
  induction l as [|a l IH]; intros s G C H; [exists (pos s); split; [destruct s; reflexivity|split; [exact G|cbn; lia]]|].
  destruct l as [|b l]; [exists (pos s); split; [destruct s; reflexivity|split; [exact G|cbn; lia]]|].
  change (top_cost w (a :: b :: l)) with ((if snd a && negb (snd b) then w a + w b else 0) + top_cost w (b :: l))%nat in *.
  change (top_cost (fun _ => 1%nat) (a :: b :: l)) with ((if snd a && negb (snd b) then 1 + 1 else 0) + top_cost (fun _ => 1%nat) (b :: l))%nat.
  change (insert_tops pl lookup cap (a :: b :: l) s) with (and_then (if snd a && negb (snd b) then insert_top pl lookup cap (fst a) (fst b) s else Some s) (insert_tops pl lookup cap (b :: l))).
  destruct (snd a && negb (snd b)).
  - destruct (H a (or_introl eq_refl)) as [Wa Pa]. destruct (H b (or_intror (or_introl eq_refl))) as [Wb Pb].
    destruct (insert_top_ok a b s G ltac:(lia) Wa Wb Pa Pb) as (c & -> & G' & L' & E'). cbn [and_then].
    destruct (IH (State c (neg s) (ver s)) G' ltac:(cbn [pos]; lia)) as (c2 & E2 & G2 & L2 & M2); [intros t It; apply H; right; exact It|].
    exists c2. split; [exact E2|]. split; [exact G2|]. cbn [pos] in *. lia.
  - cbn [and_then]. destruct (IH s G ltac:(lia)) as (c2 & E2 & G2 & L2 & M2); [intros t It; apply H; right; exact It|]. exists c2. split; [exact E2|]. split; [exact G2|]. lia.
Qed.
Lemma close_top_ok s l b B : pgood (pos s) -> top_vertices pl lookup sort_edges s = Some (l, b) -> (list_sum (map w l) <= B)%nat -> (length (verts (pos s)) + B <= cap)%nat ->
  (forall t, In t l -> (w t <= 1)%nat /\ P (fst t, top2 pl)) -> exists c,
  close_top pl lookup sort_edges inside cap s = Some (State c (neg s) (ver s)) /\ pgood c /\ (length (verts c) <= length (verts (pos s)) + B)%nat /\
  (2 * length (edges c) <= 2 * length (edges (pos s)) + length l)%nat.
Proof.
  intros G E Bl C H. unfold close_top. rewrite E. cbn [and_then fst snd].
  assert (K1 : list_sum (map (fun _ : R * bool => 1%nat) l) = length l) by (clear; induction l as [|a l IH]; [reflexivity|cbn [map length]; change (list_sum (1%nat :: ?x)) with (S (list_sum x)); cbn; f_equal; exact IH]).
  assert (Gen : exists c, insert_tops pl lookup cap l s = Some (State c (neg s) (ver s)) /\ pgood c /\ (length (verts c) <= length (verts (pos s)) + B)%nat /\ (2 * length (edges c) <= 2 * length (edges (pos s)) + length l)%nat).
  { destruct (top_cost_le w l) as [T _]. destruct (top_cost_le (fun _ => 1%nat) l) as [T1 _]. destruct (insert_tops_ok l s G ltac:(lia) H) as (c & Ec & Gc & Lc & Mc).
    exists c. split; [exact Ec|]. split; [exact Gc|]. lia. }
  destruct l as [|t0 [|t1 [|t2 l]]]; try exact Gen. destruct b; [|exact Gen]. clear Gen.
  destruct (inside _); [|exists (pos s); split; [destruct s; reflexivity|split; [exact G|lia]]].
  destruct (H t0 (or_introl eq_refl)) as [W0 P0]. destruct (H t1 (or_intror (or_introl eq_refl))) as [W1 P1].
  change (list_sum (map w [t0; t1])) with (w t0 + (w t1 + 0))%nat in Bl.
  destruct (insert_top_ok t0 t1 s G ltac:(lia) W0 W1 P0 P1) as (c & Ec & Gc & Lc & Mc). exists c. split; [exact Ec|]. split; [exact Gc|]. cbn [length]. lia.
Qed.
End Tops.

(** *** The triangulation *)
Lemma empty_ok : cm_ok empty_cmesh.
Proof. split; [split; [reflexivity|constructor]|constructor]. Qed.
(** The triangles of one strip. *)
Definition strip_tris (ln : list (point2 * point2)) (e : (point2 * point2) * point2) : list (tri pt) :=
  let f := lift pl (position pl) in
  let g p := CV (f p) no_planes in
  let one p q r := [if forwards pl then Tri (f p) (f q) (f r) else Tri (f q) (f p) (f r)] in
  let quad p q r s := poly_tris (if forwards pl then [g p; g q; g r; g s] else [g p; g s; g r; g q]) in
  let '((a, b), n) := e in
  match partner pl inside a b n ln None with
  | Some ((v, w), _) =>
      if rltb (Rabs (snd v - snd a)) tol then one v w b
      else if rltb (Rabs (snd w - snd b)) tol then one v w a
      else quad a v w b
  | None => quad a (fst a, bottom2 pl) (fst b, bottom2 pl) b
  end.
Lemma face_triangle_ok p q r m l : cm_ok m -> visit_n (cm_mesh m) = Some l ->
  cm_ok (face_triangle pl p q r m) /\ visit_n (cm_mesh (face_triangle pl p q r m)) =
    Some (l ++ [(if forwards pl then Tri (lift pl (position pl) p) (lift pl (position pl) q) (lift pl (position pl) r) else Tri (lift pl (position pl) q) (lift pl (position pl) p) (lift pl (position pl) r), face_normal pl)]).
Proof.
  intros [W F] Vi. set (f := lift pl (position pl)). set (vs := m_vertices (cm_mesh m)).
  set (t := if forwards pl then (length vs, length vs + 1, length vs + 2)%nat else (length vs + 1, length vs, length vs + 2)%nat).
  assert (E : cm_mesh (face_triangle pl p q r m) = add_triangle (Mesh (vs ++ [f p; f q; f r]) (m_triangles (cm_mesh m)) (m_normals (cm_mesh m))) t (face_normal pl)).
  { unfold face_triangle, cm_add_triangle, cm_add_vertex, add_triangle, add_vertex. cbn [cm_mesh fst m_vertices m_triangles m_normals]. rewrite <- !app_assoc. unfold t, num_vertices. fold vs. destruct (forwards pl); reflexivity. }
  assert (Ee : cm_edges (face_triangle pl p q r m) = cm_edges m) by reflexivity.
  assert (W' : well_formed (Mesh (vs ++ [f p; f q; f r]) (m_triangles (cm_mesh m)) (m_normals (cm_mesh m)))).
  { destruct W as [L G]. split; [exact L|]. cbn [m_vertices m_triangles]. revert G. apply Forall_impl. intros [[i j] k]. unfold index_ok. rewrite app_length. fold vs. lia. }
  split.
  - split.
    + rewrite E. apply add_triangle_wf; [exact W'|]. unfold t, index_ok, num_vertices. cbn [m_vertices]. rewrite app_length. cbn [length]. destruct (forwards pl); lia.
    + rewrite Ee. revert F. apply Forall_impl. intros e (A & B & C). unfold edge_ok. rewrite E. unfold num_vertices, num_triangles in *. cbn [add_triangle m_vertices m_triangles]. rewrite !app_length. unfold vs. cbn [length]. lia.
  - rewrite E. apply visit_add_triangle; [apply W'| |].
    + apply visit_more_vertices. destruct (cm_mesh m). exact Vi.
    + cbn [m_vertices]. unfold t. destruct (forwards pl); unfold MeshModel.corners; rewrite !nth_error_app2 by lia; rewrite ?Nat.sub_diag;
        replace (length vs + 1 - length vs)%nat with 1%nat by lia; replace (length vs + 2 - length vs)%nat with 2%nat by lia; reflexivity.
Qed.
Lemma face_quad_ok p q r t m l : cm_ok m -> visit_n (cm_mesh m) = Some l -> exists m', face_quad pl p q r t m = Some m' /\ cm_ok m' /\
  visit_n (cm_mesh m') = Some (l ++ map (fun x => (x, face_normal pl)) (poly_tris (let g p := CV (lift pl (position pl) p) no_planes in if forwards pl then [g p; g q; g r; g t] else [g p; g t; g r; g q]))).
Proof.
  intros O Vi. unfold face_quad.
  match goal with |- exists m', add_to_mesh ?p m = _ /\ _ => destruct (add_to_mesh_ok p m l O Vi) as (m' & E & O' & V' & _) end.
  { intros [L _]. cbn [p_vertices] in L. destruct (forwards pl); discriminate L. }
  exists m'. split; [exact E|]. split; [exact O'|]. exact V'.
Qed.
Lemma face_strip_ok ln e m l : cm_ok m -> visit_n (cm_mesh m) = Some l -> exists m', face_strip pl inside ln e m = Some m' /\ cm_ok m' /\
  visit_n (cm_mesh m') = Some (l ++ map (fun x => (x, face_normal pl)) (strip_tris ln e)).
Proof.
  intros O Vi. destruct e as [[a b] n]. unfold face_strip, strip_tris. destruct (partner pl inside a b n ln None) as [[[v w] d]|].
  - destruct (rltb _ _); [eexists; split; [reflexivity|]; apply face_triangle_ok; assumption|].
    destruct (rltb _ _); [eexists; split; [reflexivity|]; apply face_triangle_ok; assumption|]. apply face_quad_ok; assumption.
  - apply face_quad_ok; assumption.
Qed.
Lemma combine_nsegs c : combine (segs c) (map enormal (edges c)) = nsegs c.
Proof. unfold segs, nsegs, nseg. induction (edges c) as [|e es IH]; [reflexivity|]. cbn [map combine]. rewrite IH. reflexivity. Qed.
Lemma triangulate_ok s : Forall (edge_valid (length (verts (pos s)))) (edges (pos s)) -> Forall (edge_valid (length (verts (neg s)))) (edges (neg s)) -> exists m,
  triangulate_domain pl inside s = Some m /\ cm_ok m /\
  visit_n (cm_mesh m) = Some (map (fun x => (x, face_normal pl)) (flat_map (strip_tris (segs (neg s))) (nsegs (pos s)))).
Proof.
  intros Vp Vn. unfold triangulate_domain.
  rewrite (each_map (ends (pos s)) (seg (verts (pos s)))) by (revert Vp; apply Forall_impl; intros e; apply ends_seg).
  rewrite (each_map (ends (neg s)) (seg (verts (neg s)))) by (revert Vn; apply Forall_impl; intros e; apply ends_seg). cbn [and_then].
  fold (segs (pos s)) (segs (neg s)). rewrite combine_nsegs.
  assert (G : forall es m l, cm_ok m -> visit_n (cm_mesh m) = Some l -> exists m', fold_left (fun m e => and_then m (face_strip pl inside (segs (neg s)) e)) es (Some m) = Some m' /\ cm_ok m' /\
    visit_n (cm_mesh m') = Some (l ++ map (fun x => (x, face_normal pl)) (flat_map (strip_tris (segs (neg s))) es))).
  { induction es as [|e es IH]; intros m l O Vi; [exists m; cbn; rewrite app_nil_r; auto|]. cbn [fold_left and_then].
    destruct (face_strip_ok (segs (neg s)) e m l O Vi) as (m1 & -> & O1 & V1). destruct (IH m1 _ O1 V1) as (m2 & E2 & O2 & V2).
    exists m2. split; [exact E2|]. split; [exact O2|]. rewrite V2. cbn [flat_map]. rewrite map_app, <- app_assoc. reflexivity. }
  destruct (G (nsegs (pos s)) empty_cmesh [] empty_ok eq_refl) as (m & E & O & V). exists m. split; [exact E|]. split; [exact O|exact V].
Qed.

(** *** After the upper boundary is closed *)
Definition pieces_of (c : cont) : list ((point2 * point2) * point2) :=
  map (nseg (verts c)) (List.filter (fun e => negb (is_split e)) (edges c)) ++ flat_map (pieces (verts c)) (List.filter is_split (edges c)).
Definition split_pos (s : state) : cont := with_splits (targets true (segs (neg s)) (segs (pos s)) (verts (neg s))) (pos s).
Definition split_neg (s : state) : cont := with_splits (targets false (segs (pos s)) (segs (neg s)) (verts (pos s))) (neg s).
Lemma unsplit_none c : unsplit c -> splits_of (edges c) = 0%nat.
Proof. unfold unsplit, splits_of. induction 1 as [|e es E _ IH]; [reflexivity|]. cbn [map]. rewrite E. exact IH. Qed.
Lemma rest_ok (Hs : forall l, Permutation l (sort_points l)) s0 s : close_top pl lookup sort_edges inside cap s0 = Some s ->
  valid (pos s) -> valid (neg s) -> unsplit (pos s) -> unsplit (neg s) ->
  (length (edges (neg s)) + length (verts (pos s)) + 1 <= cap)%nat -> (length (edges (pos s)) + length (verts (neg s)) + 1 <= cap)%nat -> exists s' m,
  close_contour pl lookup sort_points sort_edges inside cap s0 = Some s' /\ triangulate_domain pl inside s' = Some m /\ cm_ok m /\
  visit_n (cm_mesh m) = Some (map (fun x => (x, face_normal pl)) (flat_map (strip_tris (map fst (pieces_of (split_neg s)))) (pieces_of (split_pos s)))).
Proof.
  intros E Vp Vn Up Un Cn Cp. unfold close_contour. rewrite E. cbn [and_then]. rewrite set_splits_ok by assumption. cbn [and_then pos neg ver].
  fold (split_pos s) (split_neg s).
  assert (Ln : (splits_of (edges (split_neg s)) <= length (verts (pos s)))%nat).
  { unfold split_neg, with_splits. cbn [edges]. etransitivity; [apply spread_splits|]. rewrite unsplit_none by exact Un. apply targets_length. }
  assert (Lp : (splits_of (edges (split_pos s)) <= length (verts (neg s)))%nat).
  { unfold split_pos, with_splits. cbn [edges]. etransitivity; [apply spread_splits|]. rewrite unsplit_none by exact Up. apply targets_length. }
  assert (En : length (edges (split_neg s)) = length (edges (neg s))) by apply spread_length. assert (Ep : length (edges (split_pos s)) = length (edges (pos s))) by apply spread_length.
  destruct (split_edges_ok Hs (split_neg s) (with_splits_valid _ _ Vn) ltac:(lia)) as (n' & -> & Vn' & _ & _ & Mn).
  destruct (split_edges_ok Hs (split_pos s) (with_splits_valid _ _ Vp) ltac:(lia)) as (p' & -> & Vp' & _ & _ & Mp). cbn [and_then option_map].
  destruct (triangulate_ok (State p' n' (ver s)) Vp' Vn') as (m & Em & Om & Vm). eexists. exists m. split; [reflexivity|]. split; [exact Em|]. split; [exact Om|].
  rewrite Vm. cbn [pos neg]. unfold pieces_of. rewrite <- Mn, <- Mp. unfold segs, nsegs. rewrite map_map. reflexivity.
Qed.
End Contour.
