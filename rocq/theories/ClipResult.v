(** Results of clipping a triangle and a mesh. *)
From Coq Require Import Reals List Arith Bool Sorted Lia Lra.
From Verif Require Import Geo MappingModel TrimmedQuadModel MeshModel MeshProofs MeshGeoModel MeshGeoProofs ClipModel ClipTheory ClipPlane ClipArea ClipProofs ClipInv ClipMeshProofs ClipCover.
Import ListNotations.
Local Open Scope R_scope.

(** A piece of a triangle: corners in the triangle, no opposite orientation. *)
Definition piece_of (s t : tri pt) : Prop :=
  in_triangle t (P1 s) /\ in_triangle t (P2 s) /\ in_triangle t (P3 s) /\ exists f, 0 <= f /\ area2 s = vscale f (area2 t).

Lemma sorted_filter (f : nat * R -> bool) l : StronglySorted lt (map fst l) -> StronglySorted lt (map fst (filter f l)).
Proof.
  induction l as [|a l IH]; intros S; [exact S|]. cbn [map] in S. inversion S as [|? ? S' F]; subst. cbn [filter]. destruct (f a); [|apply IH, S'].
  cbn [map]. constructor; [apply IH, S'|]. rewrite Forall_forall in *. intros x I. apply F. apply in_map_iff in I as (y & <- & I). apply filter_In in I as [I _]. apply in_map, I.
Qed.
Lemma planes_sorted t lo hi : StronglySorted lt (map fst (planes t lo hi)).
Proof. apply sorted_filter. unfold all_planes. cbn [seq map fst]. repeat (constructor; [|repeat constructor; lia]). constructor. Qed.
Lemma planes_in t lo hi k pos : In (k, pos) (planes t lo hi) <-> (k < 6)%nat /\ pos = plane_pos lo hi k /\ used t (k, pos) = true.
Proof.
  unfold planes, all_planes. rewrite filter_In, in_map_iff. split.
  - intros [(j & E & I) U]. injection E as -> <-. apply in_seq in I. split; [lia|]. split; [reflexivity | exact U].
  - intros (L & -> & U). split; [exists k; split; [reflexivity | apply in_seq; lia] | exact U].
Qed.
Section Result.
Variables (t : tri pt) (lo hi : pt).
Let ws := clip_all t (planes t lo hi) start.
Let qs := map w_q ws.
Lemma ws_oriented : oriented qs /\ area_of qs <= 1.
Proof. rewrite <- start_area. exact (all_oriented t (planes t lo hi) start start_convex start_oriented). Qed.
Lemma ws_inside v : In v qs -> hull (map w_q start) v /\ forall k pos, In (k, pos) (planes t lo hi) -> hk t k pos v <= plane_tol.
Proof. apply all_inside, start_convex. Qed.
Lemma ws_complete x : hull (map w_q start) x -> (forall k pos, In (k, pos) (planes t lo hi) -> hk t k pos x < - plane_tol) -> hull qs x.
Proof. apply all_complete, start_convex. Qed.
Lemma ws_marks w k : In w ws -> w_on w k = true -> (k < 6)%nat /\ - plane_tol <= hk t k (plane_pos lo hi k) (w_q w) <= plane_tol.
Proof.
  intros I O. split.
  - destruct (all_bound t (planes t lo hi) start start_convex w k I O) as [(w' & I' & O') | (pos & J)]; [|apply planes_in in J; apply J].
    destruct I' as [<-|[<-|[<-|[]]]]; discriminate.
  - apply (all_marks t (plane_pos lo hi) (planes t lo hi) start start_convex) with (w := w); [| |exact I | exact O].
    + intros k' pos J. apply planes_in in J. apply J.
    + intros w' j I'. destruct I' as [<-|[<-|[<-|[]]]]; discriminate.
Qed.
Lemma ws_length : (length ws <= 9)%nat /\ (ws = [] \/ (3 <= length ws)%nat).
Proof.
  split.
  - assert (P := planes_length t lo hi). assert (P' : (length start + length (planes t lo hi) <= 9)%nat) by (cbn [length start]; lia).
    destruct (clip_all_ok t (planes t lo hi) start start_convex P') as (_ & _ & L). fold ws in L. lia.
  - unfold ws. assert (G : forall l vs, convex_poly (map w_q vs) -> (vs = [] \/ (3 <= length vs)%nat) -> clip_all t l vs = [] \/ (3 <= length (clip_all t l vs))%nat).
    { induction l as [|[k pos] l IH]; intros vs C H; [exact H|]. apply (IH (clipw t k pos vs)); [apply clipw_convex, C|].
      destruct (clipw_clipped t k pos vs C) as [A | N | b0 bs n0 ns r R X Y E]; [exact H | left; reflexivity|]. right.
      rewrite (rot_length _ _ E). cbn [length]. rewrite app_length. cbn [length]. lia. }
    apply G; [apply start_convex | right; cbn; lia].
Qed.
Lemma ws_unmarked k : ws <> [] -> exists w, In w ws /\ w_on w k = false.
Proof.
  intros N. destruct (in_dec Nat.eq_dec k (map fst (planes t lo hi))) as [I|I].
  - assert (S : some_unmarked k ws).
    { apply all_unmarked; [apply planes_sorted | apply start_convex | |].
      - intros i _ w J j. destruct J as [<-|[<-|[<-|[]]]]; discriminate.
      - left. split; [exact I|]. intros w J. destruct J as [<-|[<-|[<-|[]]]]; reflexivity. }
    destruct S as [S|S]; [contradiction | exact S].
  - destruct ws as [|w r] eqn:E; [congruence|]. exists w. split; [left; reflexivity|]. destruct (w_on w k) eqn:O; [|reflexivity]. exfalso.
    destruct (all_bound t (planes t lo hi) start start_convex w k) as [(w' & I' & O') | (pos & J)]; [fold ws; rewrite E; left; reflexivity | exact O | |].
    + destruct I' as [<-|[<-|[<-|[]]]]; discriminate.
    + apply I. apply in_map_iff. exists (k, pos). split; [reflexivity | exact J].
Qed.
Lemma ws_not_blocked n : ~ blocked (Poly (map (emb t) ws) n).
Proof.
  intros [L (k & K & A)]. cbn [p_vertices] in *. rewrite map_length in L. destruct (ws_unmarked k) as (w & I & O); [intros E; rewrite E in L; discriminate|].
  unfold all_on in A. rewrite forallb_forall in A. specialize (A (emb t w) (in_map _ _ _ I)). cbn [emb c_on] in A. congruence.
Qed.
Lemma emb_pos l : map c_pos (map (emb t) l) = map (pos2 t) (map w_q l).
Proof. rewrite !map_map. reflexivity. Qed.
(** The triangles of the polygon in the coordinates of the triangle. *)
Definition tris2 (l : list p2) : list (p2 * p2 * p2) :=
  match l with [a; b; c] => [(a, b, c)] | _ :: _ :: _ :: _ => map (fun ab => (fst ab, snd ab, centroid2 l)) (ring l) | _ => [] end.
Definition tri2 (abc : p2 * p2 * p2) : tri pt := let '(a, b, c) := abc in Tri (pos2 t a) (pos2 t b) (pos2 t c).
Lemma tris_pos l : poly_tris (map (emb t) l) = map tri2 (tris2 (map w_q l)).
Proof.
  destruct l as [|a [|b [|c [|d r]]]]; try reflexivity. set (l := a :: b :: c :: d :: r).
  change (poly_tris (map (emb t) l)) with (map (fan_tri (centroid (map (emb t) l))) (ring (map (emb t) l))).
  change (tris2 (map w_q l)) with (map (fun ab => (fst ab, snd ab, centroid2 (map w_q l))) (ring (map w_q l))).
  rewrite !ring_map, !map_map, centroid_pos by discriminate. reflexivity.
Qed.
Lemma tris2_spec l : oriented l -> (forall a b c, In (a, b, c) (tris2 l) -> hull l a /\ hull l b /\ hull l c /\ 0 <= orient a b c) /\
  ((3 <= length l)%nat -> sum (fun abc => let '(a, b, c) := abc in orient a b c) (tris2 l) = area_of l) /\
  ((3 <= length l)%nat -> forall x, hull l x -> exists a b c, In (a, b, c) (tris2 l) /\ hull [a; b; c] x).
Proof.
  intros O. destruct l as [|a [|b [|c [|d r]]]].
  1-3: (split; [intros a' b' c' [] | split; cbn [length]; intros; lia]).
  - split; [|split].
    + intros a' b' c' [E|[]]. injection E as <- <- <-. split; [apply hull_in; left; reflexivity|]. split; [apply hull_in; right; left; reflexivity|]. split; [apply hull_in; right; right; left; reflexivity|].
      apply (O 0%nat 1%nat 2%nat); try lia; reflexivity.
    + intros _. cbn [tris2 sum area_of last sh]. unfold orient. ring.
    + intros _ x X. exists a, b, c. split; [left; reflexivity | exact X].
  - set (l := a :: b :: c :: d :: r) in *. change (tris2 l) with (map (fun ab => (fst ab, snd ab, centroid2 l)) (ring l)).
    assert (N : l <> []) by discriminate. assert (Hz := centroid_hull l N). split; [|split].
    + intros a' b' c' I. apply in_map_iff in I as ([u v] & E & I). injection E as <- <- <-. cbn [fst snd]. destruct (ring_in l u v I) as [Iu Iv].
      split; [apply hull_in, Iu|]. split; [apply hull_in, Iv|]. split; [exact Hz|]. apply (hull_orient l); [intros w W; exact (ring_left l u v w O I W) | exact Hz].
    + intros _. rewrite sum_map. cbn [fst snd]. unfold l at 2. unfold ring. rewrite ring_pairs.
      assert (G : forall m z x, sum (fun ab : p2 * p2 => orient (fst ab) (snd ab) z) (pairs x m) = fan z x m).
      { induction m as [|y m IH]; intros z x; [reflexivity|]. cbn [pairs sum fan fst snd]. rewrite IH. reflexivity. }
      rewrite G. set (m := b :: c :: d :: r) in *. change l with (a :: m). rewrite <- (fan_area (centroid2 (a :: m)) a m).
      assert (Fa : forall m z x y, fan z x (m ++ [y]) = fan z x m + orient (last m x) y z).
      { induction m0 as [|e m' IH]; intros z x y; cbn [app fan]; [cbn [last]; ring|]. rewrite IH, last_cons. ring. }
      apply Fa.
    + intros _ x X. destruct (fan_covers l x N O X) as (u & v & I & H). exists u, v, (centroid2 l). split; [|exact H]. apply in_map_iff. exists (u, v). split; [reflexivity | exact I].
Qed.
Lemma hull_tri2 a b c x : hull [a; b; c] x -> in_triangle (tri2 (a, b, c)) (pos2 t x).
Proof.
  intros H. apply (H (fun x => in_triangle (tri2 (a, b, c)) (pos2 t x))).
  - intros p q s (a1 & b1 & c1 & A1 & B1 & C1 & S1 & E1) (a2 & b2 & c2 & A2 & B2 & C2 & S2 & E2) S. rewrite pos2_mix', E1, E2.
    exists ((1 - s) * a1 + s * a2), ((1 - s) * b1 + s * b2), ((1 - s) * c1 + s * c2). split; [nra|]. split; [nra|]. split; [nra|]. split.
    + replace ((1 - s) * a1 + s * a2 + ((1 - s) * b1 + s * b2) + ((1 - s) * c1 + s * c2)) with ((1 - s) * (a1 + b1 + c1) + s * (a2 + b2 + c2)) by ring. rewrite S1, S2. ring.
    + apply pt_eq. intros d. unfold vadd, vscale. destruct d; cbn [at_ px py pz]; ring.
  - intros v [<-|[<-|[<-|[]]]]; cbn [tri2]; [exists 1, 0, 0 | exists 0, 1, 0 | exists 0, 0, 1]; (split; [lra|]; split; [lra|]; split; [lra|]; split; [lra|];
      apply pt_eq; intros d; unfold vadd, vscale; destruct d; cbn [at_ px py pz P1 P2 P3]; ring).
Qed.
Lemma area_scale s f : 0 <= f -> area2 s = vscale f (area2 t) -> tri_area s = f * tri_area t.
Proof. intros F E. unfold tri_area. fold (area2 s). fold (area2 t). rewrite E, norm_scale by exact F. ring. Qed.
Lemma ws_tris : let l := poly_tris (map (emb t) ws) in
  (forall s, In s l -> piece_of s t) /\ sum tri_area l = area_of qs * tri_area t /\
  (forall x, hull qs x -> exists s, In s l /\ in_triangle s (pos2 t x)) /\
  vsum (map area2 l) = vscale (area_of qs) (area2 t).
Proof.
  intros l. unfold l. rewrite tris_pos. fold qs. destruct ws_oriented as [O _]. destruct (tris2_spec qs O) as (A & B & C). destruct ws_length as [_ L].
  assert (Lq : ws = [] \/ (3 <= length qs)%nat) by (unfold qs; rewrite map_length; exact L).
  assert (Fin : forall a, hull qs a -> in_triangle t (pos2 t a)).
  { intros a H. apply start_hull. revert H. apply hull_mono. intros v I. apply ws_inside, I. }
  split; [|split; [|split]].
  - intros s I. apply in_map_iff in I as ([[a b] c] & <- & I). destruct (A a b c I) as (Ha & Hb & Hc & Ho). cbn [tri2]. unfold piece_of. cbn [P1 P2 P3].
    split; [apply Fin, Ha|]. split; [apply Fin, Hb|]. split; [apply Fin, Hc|]. exists (orient a b c). split; [exact Ho | apply pos2_area].
  - destruct Lq as [E|Lq]; [unfold qs; rewrite E; cbn [map tris2 sum area_of]; ring|]. rewrite <- (B Lq), sum_map.
    assert (G : forall m, (forall a b c, In (a, b, c) m -> 0 <= orient a b c) -> sum (fun abc => tri_area (tri2 abc)) m = sum (fun abc => let '(a, b, c) := abc in orient a b c) m * tri_area t).
    { induction m as [|[[a b] c] m IH]; intros P; [cbn [sum]; ring|]. cbn [sum]. rewrite IH by (intros a' b' c' I; apply P; right; exact I).
      rewrite (area_scale (tri2 (a, b, c)) (orient a b c)); [ring | apply P; left; reflexivity | apply pos2_area]. }
    apply G. intros a b c I. apply (A a b c I).
  - intros x X. destruct Lq as [E|Lq].
    + exfalso. unfold qs in X. rewrite E in X. apply (X (fun _ => False)); [intros p q s []|intros v []].
    + destruct (C Lq x X) as (a & b & c & I & H). exists (tri2 (a, b, c)). split; [apply in_map, I | apply hull_tri2, H].
  - destruct Lq as [E|Lq]; [unfold qs; rewrite E; cbn [map tris2 vsum fold_right area_of]; apply pt_eq; intros []; cbn; ring|]. rewrite <- (B Lq).
    rewrite map_map. clear A B C. induction (tris2 qs) as [|[[a b] c] m IH]; [cbn [map vsum fold_right sum]; apply pt_eq; intros []; cbn; ring|].
    cbn [map sum]. 
    transitivity (vadd (area2 (tri2 (a, b, c))) (vscale (sum (fun abc : p2 * p2 * p2 => let '(a, b, c) := abc in orient a b c) m) (area2 t))).
    + cbn [vsum fold_right]. f_equal. exact IH.
    + cbn [tri2]. rewrite pos2_area. apply pt_eq. intros []; unfold vadd, vscale; cbn [at_ px py pz]; ring.
Qed.
End Result.
