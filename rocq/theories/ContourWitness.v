(** A contour for which the vertices outgrow their reservation. *)
From Coq Require Import Reals List Arith Bool Permutation Lia Lra.
From Verif Require Import Geo MappingModel MeshModel ClipModel GeoQueryModel SatMain DomainModel DomainProps ContourModel ContourProofs.
Import ListNotations.
Local Open Scope R_scope.

(** A search from the first to the last element. *)
Fixpoint search_from (tol : R) (i : nat) (l : list point2) (p : point2) : option nat :=
  match l with [] => None | q :: l => if psame tol q p then Some i else search_from tol (S i) l p end.
Definition search (tol : R) (l : list point2) (p : point2) : option nat := search_from tol 0 l p.
Lemma search_from_some tol l p : forall i k, search_from tol i l p = Some k -> exists j q, k = (i + j)%nat /\ nth_error l j = Some q /\ psame tol q p = true.
Proof.
  induction l as [|q l IH]; intros i k; cbn [search_from]; [discriminate|]. destruct (psame tol q p) eqn:E.
  - intros [= <-]. exists 0%nat, q. split; [lia|]. split; [reflexivity|exact E].
  - intros H. destruct (IH _ _ H) as (j & r & H1 & H2 & H3). exists (S j), r. split; [lia|]. split; assumption.
Qed.
Lemma search_from_none tol l p : forall i, search_from tol i l p = None <-> Forall (fun q => psame tol q p = false) l.
Proof.
  induction l as [|q l IH]; intros i; cbn [search_from]; [split; [constructor|reflexivity]|]. destruct (psame tol q p) eqn:E.
  - split; [discriminate|]. intros F. inversion F; congruence.
  - rewrite IH. split; [intros F; constructor; assumption|intros F; inversion F; assumption].
Qed.
Lemma search_sound pl : sound pl (search (snap pl)).
Proof. intros ps p k H. destruct (search_from_some _ _ _ _ _ H) as (j & q & -> & E & S). exists q. split; assumption. Qed.
Lemma search_complete pl : complete pl (search (snap pl)).
Proof. intros ps p (q & I & S) N. apply search_from_none in N. rewrite Forall_forall in N. specialize (N q I). congruence. Qed.

(** Insertion sorts. *)
Section Sort.
Context {A : Type} (key : A -> R).
Fixpoint sort_in (a : A) (l : list A) : list A := match l with [] => [a] | b :: l => if rltb (key b) (key a) then b :: sort_in a l else a :: b :: l end.
Definition sort_by (l : list A) : list A := fold_right sort_in [] l.
Lemma sort_in_perm a l : Permutation (a :: l) (sort_in a l).
Proof. induction l as [|b l IH]; cbn; [apply Permutation_refl|]. destruct (rltb _ _); [|apply Permutation_refl]. eapply perm_trans; [apply perm_swap|]. constructor. exact IH. Qed.
Lemma sort_by_perm l : Permutation l (sort_by l).
Proof. induction l as [|a l IH]; cbn; [constructor|]. eapply perm_trans; [apply perm_skip, IH|apply sort_in_perm]. Qed.
Fixpoint increasing (l : list A) : Prop := match l with a :: ((b :: _) as l') => key a <= key b /\ increasing l' | _ => True end.
Lemma sort_in_increasing (a : A) (l : list A) : increasing l -> increasing (sort_in a l).
Proof.
  induction l as [|b l IH]; [exact (fun _ => I)|]. intros H. cbn [sort_in]. destruct (rltb (key b) (key a)) eqn:E.
  - apply rltb_true in E. assert (H' : increasing l) by (destruct l; [exact I|apply H]). specialize (IH H'). destruct l as [|c l]; [split; [lra|exact I]|]. cbn [sort_in] in *. destruct (rltb (key c) (key a)); split; try exact IH; [apply H|lra].
  - apply rltb_false in E. split; [exact E|exact H].
Qed.
Lemma sort_by_increasing (l : list A) : increasing (sort_by l).
Proof. induction l as [|a l IH]; [exact I|]. apply sort_in_increasing, IH. Qed.
End Sort.
Definition point_sort : list point2 -> list point2 := sort_by (fun p : point2 => fst p).
(** The vertex on the upper boundary (the centres of edges that share it are not compared). *)
Definition top_sort (vs : list point2) : list (edge2 * bool) -> list (edge2 * bool) :=
  sort_by (fun e : edge2 * bool => if snd e then x1 vs (fst e) else x2 vs (fst e)).

(** The unit cube, and its lower face in the third direction. *)
Definition unit_plane : plane := Plane AX AY AZ false false (Pt 0 0 0) (Pt 1 1 1).
Lemma unit_made : make_plane 2 false (Pt 0 0 0) (Pt 1 1 1) false = Some unit_plane.
Proof. reflexivity. Qed.
Lemma unit_snap : snap unit_plane = / 10 ^ 12.
Proof. unfold snap, relative_tol. cbn [unit_plane pl_lo pl_hi px py pz]. replace (1 - 0) with 1 by ring. rewrite !(Rmax_left 1 1) by lra. rewrite Rmult_1_l. apply Rmax_left. lra. Qed.

Section Growth.
Variable inside : pt -> bool.
Let t := / 10 ^ 12.
Let y := 1 - 5 * t.
Let z := y - / 10.
Lemma t_small : 0 < t < / 1000000. Proof. unfold t. split; [apply Rinv_0_lt_compat, pow_lt; lra|]. apply Rinv_lt_contravar; [|lra]. apply Rmult_lt_0_compat; [lra|apply pow_lt; lra]. Qed.
(** Four edges that start or end five tolerances below the upper bound of the second direction. *)
Definition growth_edges : list (pt * pt * pt) :=
  [ (Pt (8 / 40) y 0, Pt (11 / 40) z 0, Pt (4 / 5) (3 / 5) 0);
    (Pt (13 / 40) z 0, Pt (16 / 40) y 0, Pt (- (4 / 5)) (3 / 5) 0);
    (Pt (24 / 40) y 0, Pt (27 / 40) z 0, Pt (4 / 5) (3 / 5) 0);
    (Pt (29 / 40) z 0, Pt (32 / 40) y 0, Pt (- (4 / 5)) (3 / 5) 0) ].
Notation pl := unit_plane.
Notation look := (search (snap pl)).

Lemma psame_far p q : t <= Rabs (fst p - fst q) -> psame (snap pl) p q = false.
Proof.
  intros H. rewrite unit_snap. fold t. unfold psame, pcmp. rewrite (rltb_no (Rabs (fst p - fst q)) t) by exact H. rewrite Rabs_minus_sym in H. rewrite (rltb_no (Rabs (fst q - fst p)) t) by exact H.
  pose proof t_small. destruct (Rle_dec (fst p) (fst q - t)); [rewrite rleb_yes by lra; reflexivity|]. rewrite (rleb_yes (fst q) (fst p - t)), andb_false_r; [reflexivity|]. unfold Rabs in H. destruct (Rcase_abs _) in H; lra.
Qed.
Lemma psame_low p q : t < Rabs (snd p - snd q) -> psame (snap pl) p q = false.
Proof.
  intros H. destruct (Rlt_dec (Rabs (fst p - fst q)) t) as [L|L]; [|apply psame_far; lra].
  rewrite unit_snap. fold t. unfold psame, pcmp. rewrite (rltb_yes (Rabs (fst p - fst q)) t) by exact L. rewrite Rabs_minus_sym in L. rewrite (rltb_yes (Rabs (fst q - fst p)) t) by exact L.
  destruct (Rlt_dec (snd p) (snd q - t)); [rewrite rltb_yes by lra; reflexivity|]. rewrite (rltb_yes (snd q) (snd p - t)), andb_false_r; [reflexivity|]. unfold Rabs in H. destruct (Rcase_abs _) in H; lra.
Qed.
Definition fresh (vs : list point2) (p : point2) : Prop := Forall (fun q => psame (snap pl) q p = false) vs.
Lemma fresh_insert cap vs es a b n : fresh vs a -> fresh (vs ++ [a]) b -> insert_edge2 pl look cap a b n (Cont vs (seq 0 (length vs)) es) =
  if (length vs + 2 <=? cap)%nat then Some (Cont (vs ++ [a; b]) (seq 0 (length (vs ++ [a; b]))) (es ++ [Edge2 (length vs) (length vs + 1) n []])) else None.
Proof.
  intros Fa Fb. assert (AB : psame (snap pl) a b = false). { apply Forall_app in Fb. destruct Fb as [_ Fb]. inversion Fb; assumption. }
  assert (Fb' : fresh vs b) by (apply Forall_app in Fb; apply Fb).
  assert (FV : forall ws es' p, fresh ws p -> find_vertex look (Cont ws (seq 0 (length ws)) es') p = None).
  { intros ws es' p F. unfold find_vertex. rewrite full_points by reflexivity. unfold search. cbn [verts vset]. rewrite (proj2 (search_from_none _ _ _ _) F). reflexivity. }
  unfold insert_edge2, unique_ids. rewrite AB, !FV by assumption. cbn [verts]. rewrite (proj2 (Nat.eqb_neq _ _)) by lia. unfold insert_at at 1. cbn [verts vset edges]. rewrite Nat.eqb_refl.
  rewrite FV by assumption. destruct (length vs <? cap)%nat eqn:C1.
  - cbn [and_then]. unfold insert_at. cbn [verts vset edges]. rewrite app_length. cbn [length]. rewrite Nat.eqb_refl.
    replace (seq 0 (length vs) ++ [length vs]) with (seq 0 (length (vs ++ [a]))) by (rewrite app_length; cbn [length]; rewrite seq_app; reflexivity).
    rewrite FV by assumption. apply Nat.ltb_lt in C1. destruct (length vs + 1 <? cap)%nat eqn:C2; [apply Nat.ltb_lt in C2; rewrite (proj2 (Nat.leb_le _ _)) by lia|apply Nat.ltb_ge in C2; rewrite (proj2 (Nat.leb_gt _ _)) by lia; reflexivity].
    cbn [and_then verts vset edges]. rewrite <- app_assoc. cbn [app]. replace (length (vs ++ [a; b])) with (length (vs ++ [a]) + 1)%nat by (rewrite !app_length; cbn [length]; lia). rewrite (seq_app (length (vs ++ [a])) 1). cbn [seq Nat.add]. rewrite (app_length vs [a]). reflexivity.
  - apply Nat.ltb_ge in C1. rewrite (proj2 (Nat.leb_gt _ _)) by lia. reflexivity.
Qed.

Ltac num := unfold z, y in *; pose proof t_small; cbn [fst snd]; lra.
Ltac far := (apply psame_far || apply psame_low); cbn [fst snd];
  match goal with |- context [Rabs ?x] => first [rewrite (Rabs_pos_eq x) by num | rewrite (Rabs_left1 x) by num] end; num.
Ltac fr := unfold fresh; cbn [app]; repeat apply Forall_cons; try apply Forall_nil; first [apply psame_far; cbn [fst snd]; match goal with |- context [Rabs ?x] => first [rewrite (Rabs_pos_eq x) by num | rewrite (Rabs_left1 x) by num] end; num
  | apply psame_low; cbn [fst snd]; match goal with |- context [Rabs ?x] => first [rewrite (Rabs_pos_eq x) by num | rewrite (Rabs_left1 x) by num] end; num].
Lemma zero_small : 0 < zerotol < / 1000000. Proof. unfold zerotol. split; [apply Rinv_0_lt_compat, pow_lt; lra|]. apply Rinv_lt_contravar; [|lra]. apply Rmult_lt_0_compat; [lra|apply pow_lt; lra]. Qed.
Lemma insert_pos cap p q n s : at_ AX p + / 100 < at_ AX q -> / 2 < at_ AY n -> insert_edge3 pl look cap (p, q, n) s =
  option_map (fun c => State c (neg s) (ver s)) (insert_edge2 pl look cap (at_ AX p, at_ AY p) (at_ AX q, at_ AY q) (at_ AX n, at_ AY n) (pos s)).
Proof.
  intros H1 H2. pose proof t_small. pose proof zero_small. unfold insert_edge3, project. cbn [d1 d2 unit_plane fst snd]. rewrite rltb_yes by lra. cbn [fst snd]. rewrite unit_snap. fold t.
  rewrite (rltb_yes t) by (rewrite Rabs_left1; lra). rewrite (rltb_yes zerotol) by lra. reflexivity.
Qed.
Definition growth_verts : list point2 := [(8 / 40, y); (11 / 40, z); (13 / 40, z); (16 / 40, y); (24 / 40, y); (27 / 40, z); (29 / 40, z); (32 / 40, y)].
Definition growth_state : state := State (Cont growth_verts (seq 0 8)
  [Edge2 0 1 (4 / 5, 3 / 5) []; Edge2 2 3 (- (4 / 5), 3 / 5) []; Edge2 4 5 (4 / 5, 3 / 5) []; Edge2 6 7 (- (4 / 5), 3 / 5) []]) empty_cont empty_cont.
Ltac ins := match goal with |- context [insert_edge2 pl look ?c ?a ?b ?n (Cont ?vs ?ss ?es)] => change (insert_edge2 pl look c a b n (Cont vs ss es)) with (insert_edge2 pl look c a b n (Cont vs (seq 0 (length vs)) es)); rewrite (fresh_insert c vs es a b n) by fr end.
Lemma growth_collect : collect pl look 12 growth_edges empty_state = Some growth_state.
Proof.
  unfold collect, growth_edges. cbn [fold_left and_then].
  rewrite insert_pos by (cbn [at_ px py]; lra). cbn [at_ px py]. change (pos empty_state) with (Cont [] [] []). ins. cbn [length app Nat.add Nat.leb option_map and_then].
  rewrite insert_pos by (cbn [at_ px py]; lra). cbn [at_ px py pos neg ver]. ins. cbn [length app Nat.add Nat.leb option_map and_then].
  rewrite insert_pos by (cbn [at_ px py]; lra). cbn [at_ px py pos neg ver]. ins. cbn [length app Nat.add Nat.leb option_map and_then].
  rewrite insert_pos by (cbn [at_ px py]; lra). cbn [at_ px py pos neg ver]. ins. cbn [length app Nat.add Nat.leb option_map and_then].
  reflexivity.
Qed.
Definition growth_tops : list (R * bool) := [(0, true); (8 / 40, false); (16 / 40, true); (24 / 40, false); (32 / 40, true); (1, false)].
Ltac absr := repeat match goal with |- context [Rmin ?a ?b] => first [rewrite (Rmin_left a b) by num | rewrite (Rmin_right a b) by num] end; repeat match goal with |- context [Rabs ?x] => first [rewrite (Rabs_pos_eq x) by num | rewrite (Rabs_left1 x) by num] end.
Ltac dec := repeat match goal with
  | |- context [rltb ?a ?b] => first [rewrite (rltb_yes a b) by (pose proof zero_small; num) | rewrite (rltb_no a b) by (pose proof zero_small; num)]
  | |- context [rleb ?a ?b] => first [rewrite (rleb_yes a b) by (pose proof zero_small; num) | rewrite (rleb_no a b) by (pose proof zero_small; num)] end.
Lemma growth_intersecting : intersecting pl top_sort (pos growth_state) = Some [(Edge2 0 1 (4 / 5, 3 / 5) [], true); (Edge2 2 3 (- (4 / 5), 3 / 5) [], false); (Edge2 4 5 (4 / 5, 3 / 5) [], true); (Edge2 6 7 (- (4 / 5), 3 / 5) [], false)].
Proof.
  unfold intersecting. cbn [growth_state pos edges each and_then option_map]. unfold at_top, ends, end1, end2, on_top. cbn [ev1 ev2 verts growth_verts nth_error and_then option_map fst snd].
  rewrite unit_snap. fold t. unfold top2. cbn [at_ d2 unit_plane pl_hi py]. absr. dec. cbn [xorb option_map concat app and_then].
  unfold top_sort, sort_by. cbn [fold_right sort_in snd fst]. unfold x1, x2. do 6 (cbn [ev1 ev2 nth growth_verts fst snd sort_in]; dec). reflexivity.
Qed.
Lemma empty_intersecting : intersecting pl top_sort empty_cont = Some [].
Proof. reflexivity. Qed.
Lemma growth_exists p : fresh growth_verts p -> exists_somewhere look growth_state p = false.
Proof.
  intros F. unfold exists_somewhere. cbn [growth_state pos neg ver]. unfold find_vertex. rewrite full_points by reflexivity. cbn [verts]. unfold search. rewrite (proj2 (search_from_none _ _ _ _) F). reflexivity.
Qed.
Lemma growth_top_vertices : top_vertices pl look top_sort growth_state = Some (growth_tops, true).
Proof.
  unfold top_vertices. rewrite growth_intersecting. cbn [and_then]. change (neg growth_state) with empty_cont. change (ver growth_state) with empty_cont. rewrite empty_intersecting. cbn [and_then].
  assert (L : exists_somewhere look growth_state (left1 pl, top2 pl) = false). { apply growth_exists. unfold growth_verts, left1, top2. cbn [at_ d1 d2 unit_plane pl_hi pl_lo px py]. fr. }
  assert (R : exists_somewhere look growth_state (right1 pl, top2 pl) = false). { apply growth_exists. unfold growth_verts, right1, top2. cbn [at_ d1 d2 unit_plane pl_hi pl_lo px py]. fr. }
  rewrite L, R. cbn [negb]. unfold remove_duplicates, remove_vertical_duplicates, unique, x1, x2. rewrite unit_snap. fold t. do 4 (cbn [unique_from List.filter length ev1 ev2 nth growth_state pos verts growth_verts fst andb]; absr; dec).
  cbn [andb length Nat.add unique_from ]. unfold left1, right1. cbn [at_ d1 unit_plane pl_hi pl_lo px].
  do 9 (cbn [merge_tops top_distance omin found advance Nat.b2n Nat.add Nat.ltb Nat.leb fst snd tl top_positive top_negative top_vertical app enormal growth_state pos verts growth_verts x1 x2 ev1 ev2 nth left1 at_ d1 unit_plane pl_lo px];
    unfold top_positive, top_distance, found, x1, x2, left1; rewrite ?unit_snap; fold t; cbn [at_ d1 unit_plane pl_lo px ev1 ev2 nth growth_state pos verts growth_verts fst snd enormal]; absr; dec).
  cbn [and_then rev app fst]. absr. dec. cbn [andb]. reflexivity.
Qed.
Theorem growth_none : face_mesh pl look point_sort top_sort inside growth_edges = None.
Proof.
  unfold face_mesh. change (reserved growth_edges) with 12%nat. rewrite growth_collect. cbn [and_then]. unfold close_contour, close_top. rewrite growth_top_vertices.
  cbn [and_then fst snd growth_tops insert_tops andb negb]. unfold insert_top at 1. cbn [growth_state pos neg ver]. unfold top2. cbn [at_ d2 unit_plane pl_hi py]. ins. cbn [length growth_verts Nat.add Nat.leb option_map and_then app].
  unfold insert_top at 1. cbn [pos neg ver]. unfold top2. cbn [at_ d2 unit_plane pl_hi py]. ins. cbn [length Nat.add Nat.leb option_map and_then app].
  unfold insert_top. cbn [pos neg ver]. unfold top2. cbn [at_ d2 unit_plane pl_hi py]. ins. reflexivity.
Qed.
End Growth.
