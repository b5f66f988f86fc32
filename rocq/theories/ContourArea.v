(** The triangulation of a contour in general position covers the area between its edges. *)
From Coq Require Import Reals List Arith Bool Permutation Lia Lra Psatz Classical_Prop.
From Verif Require Import Geo MappingModel MeshModel MeshProofs MeshGeoModel MeshGeoProofs ClipModel ClipMeshProofs GeoQueryModel SatMain DomainModel DomainProps ContourModel ContourProofs ContourFace ContourGeo.
Import ListNotations.
Local Open Scope R_scope.

(** *** Chains *)
Fixpoint incr (a : point2) (l : list point2) (b : point2) : Prop :=
  match l with [] => fst a < fst b | p :: l => fst a < fst p /\ incr p l b end.
Lemma incr_all l : forall a b q, incr a l b -> In q (l ++ [b]) -> fst a < fst q.
Proof.
  induction l as [|p l IH]; intros a b q; cbn.
  - intros H [<-|[]]. exact H.
  - intros [H1 H2] [<-|I]; [exact H1|]. specialize (IH p b q H2 I). lra.
Qed.
Lemma chain_iff l : forall a b s, incr a l b -> (In s (chain a l b) <->
  In (fst s) (a :: l) /\ In (snd s) (l ++ [b]) /\ fst (fst s) < fst (snd s) /\ forall q, In q (a :: l ++ [b]) -> ~ (fst (fst s) < fst q < fst (snd s))).
Proof.
  induction l as [|p l IH]; intros a b s H; cbn [chain].
  - cbn in H. split.
    + intros [<-|[]]. cbn. split; [auto|]. split; [auto|]. split; [exact H|]. intros q [<-|[<-|[]]]; lra.
    + intros (H1 & H2 & _). left. destruct H1 as [H1|[]], H2 as [H2|[]]. rewrite H1, H2. destruct s; reflexivity.
  - cbn [incr] in H. destruct H as [Hp H]. split.
    + intros [<-|I].
      * cbn [fst snd]. split; [left; reflexivity|]. split; [left; reflexivity|]. split; [exact Hp|]. intros q [<-|[<-|I]]; [lra|lra|]. pose proof (incr_all l p b q H I). lra.
      * apply (IH p b s H) in I. destruct I as (I1 & I2 & I3 & I4). split; [right; exact I1|]. split; [right; exact I2|]. split; [exact I3|].
        intros q [<-|I]; [|apply I4; exact I]. assert (fst p <= fst (fst s)); [|lra]. destruct I1 as [<-|I1]; [lra|]. assert (I1' : In (fst s) (l ++ [b])) by (apply in_or_app; left; exact I1). pose proof (incr_all l p b _ H I1'). lra.
    + intros (I1 & I2 & I3 & I4). destruct I1 as [E|I1].
      * left. assert (E2 : snd s = p). { destruct I2 as [E2|I2]; [symmetry; exact E2|]. exfalso. pose proof (incr_all l p b _ H I2). apply (I4 p); [right; left; reflexivity|]. rewrite <- E. lra. }
        rewrite E, <- E2. destruct s; reflexivity.
      * right. apply (IH p b s H). split; [exact I1|]. split; [|split; [exact I3|intros q I; apply I4; right; exact I]].
        destruct I2 as [E|I2]; [|exact I2]. exfalso. rewrite <- E in I3. destruct I1 as [E1|I1]; [rewrite <- E1 in I3; lra|]. assert (I1' : In (fst s) (l ++ [b])) by (apply in_or_app; left; exact I1). pose proof (incr_all l p b _ H I1'). lra.
Qed.
Lemma chain_nodup l : forall a b, incr a l b -> NoDup (chain a l b).
Proof.
  induction l as [|p l IH]; intros a b H; cbn [chain]; [repeat constructor; intros []|]. destruct H as [Hp H]. constructor; [|apply IH; exact H].
  intros I. apply (chain_iff l p b _ H) in I. destruct I as (I & _). cbn [fst] in I. destruct I as [<-|I]; [lra|]. assert (I' : In a (l ++ [b])) by (apply in_or_app; left; exact I). pose proof (incr_all l p b a H I'). lra.
Qed.
(** Sorted points with distinct positions. *)
Fixpoint nondecreasing (l : list point2) : Prop := match l with a :: ((b :: _) as l') => fst a <= fst b /\ nondecreasing l' | _ => True end.
Lemma incr_of l : forall a b, nondecreasing l -> NoDup (map fst l) -> (forall q, In q l -> fst a < fst q < fst b) -> fst a < fst b -> incr a l b.
Proof.
  induction l as [|p l IH]; intros a b S D H L; [exact L|]. cbn [map] in D. inversion D as [|? ? D1 D2]; subst. split; [apply H; left; reflexivity|].
  assert (S' : nondecreasing l) by (destruct l; [exact I|apply S]). apply IH; [exact S'|exact D2| |apply H; left; reflexivity].
  assert (M : forall q, In q l -> fst p <= fst q).
  { clear - S. revert p S. induction l as [|c l IH]; intros p S q []; [subst; apply S|]. destruct S as [S1 S2]. specialize (IH c S2 q H). lra. }
  intros q I. split; [|apply H; right; exact I]. specialize (M q I). destruct M as [M|M]; [exact M|]. exfalso. apply D1. rewrite M. apply in_map. exact I.
Qed.

(** *** The area under a segment *)
Definition under (c : R) (s : seg2) : R := (fst (snd s) - fst (fst s)) * (/ 2 * (snd (fst s) + snd (snd s)) - c).
Definition sum_under (c : R) (l : list seg2) : R := fold_right (fun s acc => under c s + acc) 0 l.
Lemma sum_under_app c l l' : sum_under c (l ++ l') = sum_under c l + sum_under c l'.
Proof. unfold sum_under. induction l as [|a l IH]; cbn [app fold_right]; [ring|]. rewrite IH. ring. Qed.
Lemma sum_under_perm c l l' : Permutation l l' -> sum_under c l = sum_under c l'.
Proof. unfold sum_under. induction 1; cbn [fold_right]; lra. Qed.
Lemma under_chain c f l : forall a b, (forall q, In q (a :: l ++ [b]) -> snd q = ht f (fst q)) -> sum_under c (chain a l b) = under c (a, b).
Proof.
  assert (Add : forall x y z, under c ((x, ht f x), (y, ht f y)) + under c ((y, ht f y), (z, ht f z)) = under c ((x, ht f x), (z, ht f z))).
  { intros x y z. unfold under, ht, line_at. cbn [fst snd]. set (k := (snd (snd f) - snd (fst f)) / (fst (snd f) - fst (fst f))). field. }
  induction l as [|p l IH]; intros a b H; cbn [chain].
  - unfold sum_under. cbn [fold_right]. apply Rplus_0_r.
  - unfold sum_under. cbn [fold_right]. fold (sum_under c (chain p l b)). rewrite IH by (intros q I; apply H; right; exact I).
    assert (Ea := H a (or_introl eq_refl)). assert (Ep := H p (or_intror (or_introl eq_refl))). assert (Ib : In b (a :: (p :: l) ++ [b])) by (right; apply in_or_app; right; left; reflexivity). assert (Eb := H b Ib).
    destruct a as [xa ya], p as [xp yp], b as [xb yb]. cbn [fst snd] in Ea, Ep, Eb. subst. apply Add.
Qed.

(** *** The pieces of the edges of a container *)
Section Pieces.
Variable pl : plane.
Variable sort_points : list point2 -> list point2.
Hypothesis Hs : forall l, Permutation l (sort_points l).
Hypothesis Hsorted : forall l, nondecreasing (sort_points l).
Variable up : bool.
Variable A : list seg2.
Variable VA VB : list point2.
Variable c : cont.
Notation B := (segs c).
Hypothesis valid_c : valid c.
Hypothesis unsplit_c : unsplit c.
Hypothesis nodup_B : NoDup B.
Hypothesis order : forall e, In e B -> lx e < rx e.
Notation cut := (cutB pl up A B VA).
Hypothesis once : forall u u' k q q', In u VA -> In u' VA -> fst u = fst u' -> target pl up A B u = Some (k, q) -> target pl up A B u' = Some (k, q') -> u = u'.
Hypothesis nodup_V : NoDup VA.

Notation ts := (targets pl up A B VA).
Definition splits_at (k : nat) : list point2 := map snd (List.filter (fun t => fst t =? k)%nat ts).
Definition mk (f : seg2) (x y : R) : seg2 := ((x, ht f x), (y, ht f y)).
Definition piece (f : seg2) (x y : R) : Prop := cut f x /\ cut f y /\ x < y /\ forall z, cut f z -> ~ (x < z < y).

Lemma splits_at_in k f q : nth_error B k = Some f -> In q (splits_at k) -> exists u, In u VA /\ target pl up A B u = Some (k, q) /\ fst u = fst q /\ q = (fst q, ht f (fst q)) /\ over f (fst q).
Proof.
  intros Ek I. pose proof (snap_pos pl). unfold splits_at in I. apply in_map_iff in I. destruct I as ([k' q'] & E & I). cbn [snd] in E. subst q'. apply filter_In in I. destruct I as [I E]. cbn [fst] in E. apply Nat.eqb_eq in E. subst k'.
  unfold targets in I. apply in_flat_map in I. destruct I as (u & Iu & I). destruct (target pl up A B u) as [t|] eqn:T; [|destruct I]. destruct I as [->|[]].
  destruct (target_spec pl up A B u) as (fin & _ & _ & _ & [[N _]|(j & g & Ej & T' & [[R1 R2] _] & _)]); [congruence|].
  rewrite T' in T. injection T as -> <-. rewrite Ej in Ek. injection Ek as ->. exists u. cbn [fst]. split; [exact Iu|]. split; [first [exact T'|reflexivity]|]. split; [reflexivity|]. split; [reflexivity|]. unfold over, lx, rx. lra.
Qed.
Lemma splits_at_iff k f x : nth_error B k = Some f -> ((exists q, In q (splits_at k) /\ fst q = x) <-> splitB pl up A B VA f x).
Proof.
  intros Ek. split.
  - intros (q & I & E). destruct (splits_at_in k f q Ek I) as (u & Iu & T & Eu & _). exists u, k, q. rewrite <- E. auto.
  - intros (u & k' & q & Iu & T & Ek' & Ex). assert (k' = k) as ->. { apply (proj1 (NoDup_nth_error B) nodup_B); [apply nth_error_Some; congruence|congruence]. }
    exists q. assert (I : In q (splits_at k)). { unfold splits_at. apply in_map_iff. exists (k, q). split; [reflexivity|]. apply filter_In. split; [|apply Nat.eqb_refl]. unfold targets. apply in_flat_map. exists u. split; [exact Iu|]. rewrite T. left. reflexivity. }
    split; [exact I|]. destruct (splits_at_in k f q Ek I) as (u' & Iu' & T' & Eu' & _). destruct (target_spec pl up A B u) as (fin & _ & _ & _ & [[N _]|(j & g & Ej & T1 & _)]); [congruence|]. rewrite T1 in T. injection T as _ <-. exact Ex.
Qed.
Lemma splits_at_nodup k : NoDup (map fst (splits_at k)).
Proof.
  unfold splits_at. rewrite map_map. unfold targets.
  assert (G : forall V, NoDup V -> (forall u, In u V -> In u VA) -> NoDup (map (fun t => fst (snd t)) (List.filter (fun t => (fst t =? k)%nat) (flat_map (fun p => match target pl up A B p with Some t => [t] | None => [] end) V)))).
  { induction V as [|u V IH]; intros D Sub; [constructor|]. inversion D as [|? ? D1 D2]; subst. cbn [flat_map]. destruct (target pl up A B u) as [[k' q]|] eqn:T; [|apply IH; [exact D2|intros; apply Sub; right; assumption]].
    cbn [app List.filter fst]. destruct (k' =? k)%nat eqn:E; [|apply IH; [exact D2|intros; apply Sub; right; assumption]]. apply Nat.eqb_eq in E. subst k'.
    cbn [map snd]. constructor; [|apply IH; [exact D2|intros; apply Sub; right; assumption]].
    intros I. apply in_map_iff in I. destruct I as ([k' q'] & Eq & I). cbn [snd] in Eq. apply filter_In in I. destruct I as [I E]. cbn [fst] in E. apply Nat.eqb_eq in E. subst k'.
    apply in_flat_map in I. destruct I as (u' & Iu' & I). destruct (target pl up A B u') as [t|] eqn:T'; [|destruct I]. destruct I as [->|[]].
    assert (X : forall w j r, target pl up A B w = Some (j, r) -> fst r = fst w). { intros w j r W. destruct (target_spec pl up A B w) as (fin & _ & _ & _ & [[N _]|(j' & g & _ & T1 & _)]); [congruence|]. rewrite T1 in W. injection W as _ <-. reflexivity. }
    apply D1. rewrite (once u u' k q q'); auto; [apply Sub; left; reflexivity|apply Sub; right; exact Iu'|]. rewrite <- (X _ _ _ T), <- (X _ _ _ T'). symmetry. exact Eq. }
  apply G; [exact nodup_V|auto].
Qed.
Lemma chain_of k f : nth_error B k = Some f -> incr (fst f) (sort_points (splits_at k)) (snd f) /\
  (forall q, In q (fst f :: sort_points (splits_at k) ++ [snd f]) <-> exists x, cut f x /\ q = (x, ht f x)) /\
  (forall q, In q (fst f :: sort_points (splits_at k) ++ [snd f]) -> snd q = ht f (fst q)).
Proof.
  intros Ek. assert (If : In f B) by (apply nth_error_In in Ek; exact Ek). pose proof (order f If) as Of.
  assert (Ps : forall q, In q (sort_points (splits_at k)) <-> In q (splits_at k)). { intros q. split; apply Permutation_in; [apply Permutation_sym|]; apply Hs. }
  assert (Q : forall q, In q (fst f :: sort_points (splits_at k) ++ [snd f]) <-> exists x, cut f x /\ q = (x, ht f x)).
  { intros q. split.
    - intros [<-|I]; [exists (lx f); split; [left; left; reflexivity|rewrite ht_left; unfold lx; apply surjective_pairing]|]. apply in_app_or in I. destruct I as [I|[<-|[]]].
      + apply Ps in I. destruct (splits_at_in k f q Ek I) as (u & Iu & T & Eu & Eq & _). exists (fst q). split; [right; apply (splits_at_iff k f _ Ek); exists q; auto|exact Eq].
      + exists (rx f). split; [left; right; reflexivity|rewrite ht_right by exact Of; unfold rx; apply surjective_pairing].
    - intros (x & [[-> | ->]|S] & ->).
      + left. rewrite ht_left. unfold lx. destruct (fst f); reflexivity.
      + right. apply in_or_app. right. left. rewrite ht_right by exact Of. unfold rx. destruct (snd f); reflexivity.
      + right. apply in_or_app. left. apply Ps. apply (splits_at_iff k f _ Ek) in S. destruct S as (q & I & E). destruct (splits_at_in k f q Ek I) as (_ & _ & _ & _ & Eq & _). rewrite E in Eq. rewrite <- Eq. exact I. }
  split; [|split; [exact Q|]].
  - apply incr_of; [apply Hsorted| | |exact Of].
    + apply (Permutation_NoDup (l := map fst (splits_at k))); [apply Permutation_map, Hs|apply splits_at_nodup].
    + intros q I. apply Ps in I. destruct (splits_at_in k f q Ek I) as (_ & _ & _ & _ & _ & O). exact O.
  - intros q I. apply Q in I. destruct I as (x & _ & ->). reflexivity.
Qed.
Lemma chain_piece k f s : nth_error B k = Some f -> (In s (chain (fst f) (sort_points (splits_at k)) (snd f)) <-> exists x y, piece f x y /\ s = mk f x y).
Proof.
  intros Ek. destruct (chain_of k f Ek) as (I & Q & _). rewrite (chain_iff _ _ _ _ I). set (l := sort_points (splits_at k)) in *. split.
  - intros (I1 & I2 & L & No). assert (J1 : In (fst s) (fst f :: l ++ [snd f])) by (destruct I1 as [<-|I1]; [left; reflexivity|right; apply in_or_app; left; exact I1]).
    assert (J2 : In (snd s) (fst f :: l ++ [snd f])) by (right; exact I2). apply Q in J1, J2. destruct J1 as (x & Cx & Ex), J2 as (y & Cy & Ey).
    rewrite Ex, Ey in L. cbn [fst] in L. exists x, y. split; [|destruct s; cbn [fst snd] in *; subst; reflexivity]. split; [exact Cx|]. split; [exact Cy|]. split; [exact L|].
    intros z Cz Lz. apply (No (z, ht f z)); [apply Q; exists z; auto|]. rewrite Ex, Ey. exact Lz.
  - intros (x & y & (Cx & Cy & L & No) & ->). cbn [mk fst snd].
    assert (J1 : In (x, ht f x) (fst f :: l ++ [snd f])) by (apply Q; exists x; auto). assert (J2 : In (y, ht f y) (fst f :: l ++ [snd f])) by (apply Q; exists y; auto).
    split; [|split; [|split; [exact L|]]].
    + destruct J1 as [J1|J1]; [left; exact J1|]. apply in_app_or in J1. destruct J1 as [J1|[J1|[]]]; [right; exact J1|]. exfalso. assert (M : fst (snd f) < y) by (rewrite J1; exact L).
      destruct J2 as [J2|J2]; [assert (Ol : lx f < rx f) by (apply order; apply nth_error_In in Ek; exact Ek); unfold lx, rx in Ol; rewrite J2 in Ol; cbn [fst] in Ol; lra|].
      apply in_app_or in J2. destruct J2 as [J2|[J2|[]]]; [|rewrite J2 in M; cbn [fst] in M; lra]. apply (Permutation_in _ (Permutation_sym (Hs _))) in J2. destruct (splits_at_in k f _ Ek J2) as (_ & _ & _ & _ & _ & O). cbn [fst] in O. unfold over, rx in O. lra.
    + destruct J2 as [J2|J2]; [|exact J2]. exfalso. assert (M : x < fst (fst f)) by (rewrite J2; exact L). destruct J1 as [J1|J1]; [rewrite J1 in M; cbn [fst] in M; lra|]. pose proof (incr_all l _ _ _ I J1) as X. cbn [fst] in X. lra.
    + intros q Iq. apply Q in Iq. destruct Iq as (z & Cz & ->). cbn [fst]. apply No. exact Cz.
Qed.

(** *** The pieces of the container *)
Notation c' := (with_splits ts c).
Lemma edge_of e : In e (edges c') -> exists k e0, nth_error (edges c) k = Some e0 /\ nth_error B k = Some (seg (verts c) e0) /\ enormal e = enormal e0 /\
  seg (verts c) e = seg (verts c) e0 /\ esplits e = splits_at k.
Proof.
  intros I. apply In_nth_error in I. destruct I as [k E]. cbn [with_splits edges] in E. destruct (spread_split ts (edges c) 0 unsplit_c k e E) as (e0 & E0 & H1 & H2 & H3 & H4).
  exists k, e0. split; [exact E0|]. split; [apply map_nth_error; exact E0|]. split; [exact H3|]. split; [unfold seg; rewrite H1, H2; reflexivity|]. exact H4.
Qed.
Lemma edge_from k e0 : nth_error (edges c) k = Some e0 -> exists e, In e (edges c') /\ enormal e = enormal e0 /\ seg (verts c) e = seg (verts c) e0 /\ esplits e = splits_at k.
Proof.
  intros E0. assert (L : length (spread 0 ts (edges c)) = length (edges c)). { pose proof (with_splits_segs ts c) as S. apply (f_equal (@length _)) in S. unfold segs in S. cbn [with_splits verts edges] in S. rewrite !map_length in S. exact S. }
  destruct (nth_error (spread 0 ts (edges c)) k) as [e|] eqn:E; [|exfalso; apply nth_error_None in E; assert (k < length (edges c))%nat by (apply nth_error_Some; congruence); lia].
  destruct (spread_split ts (edges c) 0 unsplit_c k e E) as (e1 & E1 & H1 & H2 & H3 & H4). rewrite E0 in E1. injection E1 as <-. exists e. split; [apply (nth_error_In _ _ E)|]. split; [exact H3|]. split; [unfold seg; rewrite H1, H2; reflexivity|exact H4].
Qed.
Lemma sort_nil : sort_points [] = [].
Proof. apply Permutation_nil, Hs. Qed.
Lemma pieces_perm (d : cont) : Permutation (pieces_of sort_points d) (flat_map (pieces sort_points (verts d)) (edges d)).
Proof.
  unfold pieces_of. induction (edges d) as [|e es IH]; [constructor|]. cbn [List.filter flat_map]. destruct (is_split e) eqn:E; cbn [negb].
  - cbn [flat_map]. rewrite Permutation_app_comm, <- app_assoc. apply Permutation_app_head. rewrite Permutation_app_comm. exact IH.
  - cbn [map app]. assert (P : pieces sort_points (verts d) e = [nseg (verts d) e]). { unfold pieces. unfold is_split in E. destruct (esplits e); [|discriminate E]. rewrite sort_nil. cbn [chain map]. unfold nseg. rewrite <- surjective_pairing. reflexivity. }
    rewrite P. cbn [app]. constructor. exact IH.
Qed.
Theorem pieces_iff s n : In (s, n) (pieces_of sort_points c') <-> exists e0, In e0 (edges c) /\ n = enormal e0 /\ exists x y, piece (seg (verts c) e0) x y /\ s = mk (seg (verts c) e0) x y.
Proof.
  split.
  - intros I. apply (Permutation_in _ (pieces_perm c')) in I. apply in_flat_map in I. destruct I as (e & Ie & I). destruct (edge_of e Ie) as (k & e0 & E0 & Ek & En & Es & Ep).
    unfold pieces in I. cbn [with_splits verts] in I. rewrite Es, Ep in I. apply in_map_iff in I. destruct I as (s' & E & I). injection E as -> <-. exists e0. split; [apply (nth_error_In _ _ E0)|]. split; [exact En|].
    apply (chain_piece k); assumption.
  - intros (e0 & I0 & -> & H). apply (Permutation_in _ (Permutation_sym (pieces_perm c'))). apply In_nth_error in I0. destruct I0 as [k E0]. destruct (edge_from k e0 E0) as (e & Ie & En & Es & Ep).
    apply in_flat_map. exists e. split; [exact Ie|]. unfold pieces. cbn [with_splits verts]. rewrite Es, Ep, En. apply in_map_iff. exists s. split; [reflexivity|]. apply (chain_piece k); [apply map_nth_error; exact E0|exact H].
Qed.
Lemma nodup_flat {X Y Z} (h : X -> Z) (g : X -> list Y) l : NoDup (map h l) -> (forall a, In a l -> NoDup (g a)) -> (forall a b y, In a l -> In b l -> h a <> h b -> In y (g a) -> In y (g b) -> False) -> NoDup (flat_map g l).
Proof.
  induction l as [|a l IH]; intros D N X0; [constructor|]. cbn [map] in D. inversion D as [|? ? D1 D2]; subst. cbn [flat_map]. assert (IH' : NoDup (flat_map g l)). { apply IH; [exact D2|intros; apply N; right; assumption|]. intros b b' y I1 I2. apply X0; right; assumption. }
  assert (Na := N a (or_introl eq_refl)). assert (Dis : forall y, In y (g a) -> ~ In y (flat_map g l)).
  { intros y Iy I. apply in_flat_map in I. destruct I as (b & Ib & I). apply (X0 a b y); auto; [left; reflexivity|right; exact Ib|]. intros E. apply D1. rewrite E. apply in_map. exact Ib. }
  clear - Na IH' Dis. induction (g a) as [|y ys IHy]; [exact IH'|]. inversion Na as [|? ? N1 N2]; subst. cbn [app]. constructor; [|apply IHy; [exact N2|intros; apply Dis; right; assumption]].
  intros I. apply in_app_or in I. destruct I as [I|I]; [exact (N1 I)|]. exact (Dis y (or_introl eq_refl) I).
Qed.
Hypothesis meetB : forall e f x, In e B -> In f B -> e <> f -> cover e x -> cover f x -> ht e x = ht f x -> end_at e x /\ end_at f x.
Lemma cut_cover f x : In f B -> cut f x -> cover f x.
Proof.
  intros I [E|S]; [|apply over_cov; apply (splitB_over pl up A B VA VB f x S)]. pose proof (order f I). destruct E as [-> | ->]; unfold cover; lra.
Qed.
Lemma mk_inj f g x y x' y' : In f B -> In g B -> piece f x y -> piece g x' y' -> mk f x y = mk g x' y' -> f = g.
Proof.
  intros If Ig (C1 & C2 & L & _) (C3 & C4 & L' & _) E. unfold mk in E. injection E as -> H1 -> H2. destruct (classic (f = g)) as [H|H]; [exact H|exfalso].
  pose proof (cut_cover f _ If C1). pose proof (cut_cover f _ If C2). pose proof (cut_cover g _ Ig C3). pose proof (cut_cover g _ Ig C4).
  pose proof (ht_affine f x' y' (/ 2)) as Af. pose proof (ht_affine g x' y' (/ 2)) as Ag. set (m := x' + / 2 * (y' - x')) in *. assert (M : x' < m < y') by (unfold m; lra).
  unfold cover in *. destruct (meetB f g m If Ig H) as [[X|X] _]; [unfold cover; lra|unfold cover; lra|lra| |]; rewrite X in M; lra.
Qed.
Theorem pieces_nodup : NoDup (map fst (pieces_of sort_points c')).
Proof.
  apply (Permutation_NoDup (l := map fst (flat_map (pieces sort_points (verts c')) (edges c')))); [apply Permutation_map, Permutation_sym, pieces_perm|].
  assert (F : map fst (flat_map (pieces sort_points (verts c')) (edges c')) = flat_map (fun e => chain (fst (seg (verts c) e)) (sort_points (esplits e)) (snd (seg (verts c) e))) (edges c')).
  { cbn [with_splits verts]. generalize (edges c'). intros l. induction l as [|e l IH]; [reflexivity|]. cbn [flat_map]. rewrite map_app, IH. f_equal. unfold pieces. rewrite map_map. apply map_id. }
  rewrite F. apply (nodup_flat (seg (verts c))).
  - change (NoDup (segs c')). rewrite with_splits_segs. exact nodup_B.
  - intros e I. destruct (edge_of e I) as (k & e0 & E0 & Ek & En & Es & Ep). rewrite Es, Ep. apply chain_nodup. apply chain_of. exact Ek.
  - intros e e' s I I' N H H'. apply N. destruct (edge_of e I) as (k & e0 & E0 & Ek & En & Es & Ep), (edge_of e' I') as (k1 & e1 & E1 & Ek1 & En1 & Es1 & Ep1). rewrite Es, Ep in H. rewrite Es1, Ep1 in H'. rewrite Es, Es1.
    apply (chain_piece k _ _ Ek) in H. apply (chain_piece k1 _ _ Ek1) in H'. destruct H as (x & y & H & E), H' as (x' & y' & H' & E'). apply (mk_inj _ _ x y x' y'); auto; [apply (nth_error_In _ _ Ek)|apply (nth_error_In _ _ Ek1)|congruence].
Qed.
Theorem pieces_sum b : sum_under b (map fst (pieces_of sort_points c')) = sum_under b B.
Proof.
  rewrite (sum_under_perm b _ _ (Permutation_map fst (pieces_perm c'))). transitivity (sum_under b (segs c')); [|rewrite with_splits_segs; reflexivity]. change (segs c') with (map (seg (verts c)) (edges c')). change (verts c') with (verts c).
  enough (X : forall l, (forall e, In e l -> In e (edges c')) -> sum_under b (map fst (flat_map (pieces sort_points (verts c)) l)) = sum_under b (map (seg (verts c)) l)) by (apply X; auto).
  intros l H. induction l as [|e l IH]; [reflexivity|]. cbn [flat_map map]. rewrite map_app, sum_under_app, IH by (intros; apply H; right; assumption).
  unfold sum_under at 3. cbn [fold_right]. fold (sum_under b (map (seg (verts c)) l)). apply Rplus_eq_compat_r.
  destruct (edge_of e (H e (or_introl eq_refl))) as (k & e0 & E0 & Ek & En & Es & Ep). unfold pieces. rewrite map_map, Es, Ep. cbn [fst]. rewrite map_id. destruct (chain_of k _ Ek) as (_ & _ & L).
  rewrite (under_chain b (seg (verts c) e0)) by exact L. rewrite <- surjective_pairing. reflexivity.
Qed.
End Pieces.

(** *** Neighbours and their pieces *)
Section Area.
Variable pl : plane.
Notation tol := (snap pl).
Variable sort_points : list point2 -> list point2.
Hypothesis Hs : forall l, Permutation l (sort_points l).
Hypothesis Hsorted : forall l, nondecreasing (sort_points l).
Variable inside : pt -> bool.
Variable s : state.
Notation P := (segs (pos s)).
Notation N := (segs (neg s)).
Notation VP := (verts (pos s)).
Notation VN := (verts (neg s)).
Hypothesis G : general pl P N VP VN.
Hypothesis validP : valid (pos s).
Hypothesis validN : valid (neg s).
Hypothesis freshP : unsplit (pos s).
Hypothesis freshN : unsplit (neg s).
Notation cutP := (cutP pl P N VN).
Notation cutN := (cutN pl P N VP).
Notation below := (below P N).
Notation absc := (absc VP VN).
Notation pieceP := (piece pl true N VN (pos s)).
Notation pieceN := (piece pl false P VP (neg s)).

Lemma tpos : 0 < tol. Proof. apply snap_pos. Qed.
Lemma cut_absN f x : In f N -> cutN f x -> absc x.
Proof.
  intros I [E|S]; [apply (end_abs P N VP VN (g_endsP _ _ _ _ _ G) (g_endsN _ _ _ _ _ G) f x (or_intror I) E)|].
  apply (splitB_over pl false P N VP VN f x S).
Qed.
Lemma pieceP_facts e x y : In e P -> pieceP e x y -> absc x /\ absc y /\ x + 20 * tol <= y /\ cover e x /\ cover e y.
Proof.
  intros I (C1 & C2 & L & _). pose proof (cut_absP pl P N VP VN G e x I C1) as A1. pose proof (cut_absP pl P N VP VN G e y I C2) as A2. split; [exact A1|]. split; [exact A2|]. split; [apply (far pl VP VN (apartP pl P N VP VN G)); assumption|].
  split; apply (cut_cover pl true N VN VP (pos s)); auto; intros g Ig; apply (g_order _ _ _ _ _ G); left; exact Ig.
Qed.
Lemma pieceN_facts e x y : In e N -> pieceN e x y -> absc x /\ absc y /\ x + 20 * tol <= y /\ cover e x /\ cover e y.
Proof.
  intros I (C1 & C2 & L & _). pose proof (cut_absN e x I C1) as A1. pose proof (cut_absN e y I C2) as A2. split; [exact A1|]. split; [exact A2|]. split; [apply (far pl VP VN (apartP pl P N VP VN G)); assumption|].
  split; apply (cut_cover pl false P VP VN (neg s)); auto; intros g Ig; apply (g_order _ _ _ _ _ G); right; exact Ig.
Qed.
Lemma match_down e f x y : pieceP e x y -> below e f (x + 1 * tol) -> pieceN f x y.
Proof.
  intros Pe B. pose proof B as (Ie & If & _). destruct (pieceP_facts e x y Ie Pe) as (A1 & A2 & L20 & _). destruct Pe as (C1 & C2 & L & No).
  assert (Run := run_through pl P N VP VN G e f x y A1 B (fun z _ Lz _ Cz => No z Cz Lz)). pose proof (both_cut pl P N VP VN G) as BC.
  split; [apply (BC e f x 1 A1 (or_introl eq_refl) B); exact C1|]. split; [apply (BC e f y (-1) A2 (or_intror eq_refl)); [apply Run; [exact A2|lra]|exact C2]|]. split; [exact L|].
  intros z Cz Lz. pose proof (cut_absN f z If Cz) as Az. apply (No z); [|exact Lz]. apply (BC e f z (-1) Az (or_intror eq_refl)); [apply Run; [exact Az|lra]|exact Cz].
Qed.
Lemma match_up e f x y : pieceN f x y -> below e f (x + 1 * tol) -> pieceP e x y.
Proof.
  intros Pf B. pose proof B as (Ie & If & _). destruct (pieceN_facts f x y If Pf) as (A1 & A2 & L20 & _). destruct Pf as (C1 & C2 & L & No). pose proof (both_cut pl P N VP VN G) as BC.
  assert (Run := run_through pl P N VP VN G e f x y A1 B (fun z Az Lz Bz Cz => No z (proj1 (BC e f z (-1) Az (or_intror eq_refl) Bz) Cz) Lz)).
  split; [apply (BC e f x 1 A1 (or_introl eq_refl) B); exact C1|]. split; [apply (BC e f y (-1) A2 (or_intror eq_refl)); [apply Run; [exact A2|lra]|exact C2]|]. split; [exact L|].
  intros z Cz Lz. pose proof (cut_absP pl P N VP VN G e z Ie Cz) as Az. apply (No z); [|exact Lz]. apply (BC e f z (-1) Az (or_intror eq_refl)); [apply Run; [exact Az|lra]|exact Cz].
Qed.
Lemma lower_exists e g y : In e P -> In g P \/ In g N -> ~ absc y -> over e y -> over g y -> ht g y < ht e y -> exists f, below e f y.
Proof.
  intros Ie Hg Ny Oe Og L. destruct (list_min (fun h => - ht h y) (fun h => over h y /\ ht h y < ht e y) (P ++ N)) as (f & If & (Of & Lf) & Max); [exists g; split; [apply in_or_app; exact Hg|auto]|].
  assert (Non : forall h, In h P \/ In h N -> over h y -> ~ (ht f y < ht h y < ht e y)). { intros h Ih Oh [L1 L2]. assert (Ih' : In h (P ++ N)) by (apply in_or_app; exact Ih). specialize (Max h Ih' (conj Oh L2)). cbn beta in Max. lra. }
  exists f. apply in_app_or in If. split; [exact Ie|]. split; [exact (g_altP _ _ _ _ _ G e f y Ie If (not_absc VP VN y Ny) Oe Of Lf Non)|]. split; [exact Oe|]. split; [exact Of|]. split; [exact Lf|exact Non].
Qed.
Lemma upper_exists f y : In f N -> ~ absc y -> over f y -> exists e, below e f y.
Proof.
  intros If Ny Of. destruct (g_top _ _ _ _ _ G f y If (not_absc VP VN y Ny) Of) as (g & Hg & Og & L).
  destruct (list_min (fun h => ht h y) (fun h => over h y /\ ht f y < ht h y) (P ++ N)) as (e & Ie & (Oe & Le) & Min); [exists g; split; [apply in_or_app; exact Hg|auto]|].
  assert (Non : forall h, In h P \/ In h N -> over h y -> ~ (ht f y < ht h y < ht e y)). { intros h Ih Oh [L1 L2]. assert (Ih' : In h (P ++ N)) by (apply in_or_app; exact Ih). specialize (Min h Ih' (conj Oh L1)). cbn beta in Min. lra. }
  exists e. apply in_app_or in Ie. split; [exact (g_altN _ _ _ _ _ G f e y If Ie (not_absc VP VN y Ny) Of Oe Le Non)|]. split; [exact If|]. split; [exact Oe|]. split; [exact Of|]. split; [exact Le|exact Non].
Qed.

(** Two edges over the same interval. *)
Lemma inner_order e g x y m m' : In e P \/ In e N -> In g P \/ In g N -> e <> g -> cover e x -> cover e y -> cover g x -> cover g y -> x < m < y -> x < m' < y -> ht g m < ht e m -> ht g m' < ht e m'.
Proof.
  intros He Hg D C1 C2 C3 C4 M M' L. apply (keep_order false P N (meetP pl P N VP VN G) g e m m'); auto; try (unfold cover in *; lra).
  intros k K [E|E] _; unfold cover in *; assert (x < m + k * (m' - m) < y) by (split; nra); rewrite E in *; lra.
Qed.
Lemma end_order e g x y m x' : In e P \/ In e N -> In g P \/ In g N -> e <> g -> cover e x -> cover e y -> cover g x -> cover g y -> x < m < y -> x' = x \/ x' = y -> ht g m < ht e m -> ht g x' <= ht e x'.
Proof.
  intros He Hg D C1 C2 C3 C4 M X L. apply Rnot_lt_le. intros L'. assert (Cm : forall h, cover h x -> cover h y -> cover h m /\ cover h x') by (intros h H1 H2; unfold cover in *; destruct X; subst; lra).
  assert (Y : ht e m < ht g m); [|lra]. apply (keep_order false P N (meetP pl P N VP VN G) e g x' m); auto; try (apply Cm; assumption).
  intros k K [E|E] _; unfold cover in *; assert (x < x' + k * (m - x') < y) by (destruct X; subst; split; nra); rewrite E in *; lra.
Qed.
(** The heights of two edges over the same interval differ by more than half of the tolerance in the middle. *)
Lemma mid_gap e g x y : In e P \/ In e N -> In g P \/ In g N -> absc x -> absc y -> x < y -> cover e x -> cover e y -> cover g x -> cover g y -> e <> g ->
  let m := x + / 2 * (y - x) in (ht g m < ht e m -> tol < 2 * (ht e m - ht g m)) /\ ht g m <> ht e m.
Proof.
  intros He Hg Ax Ay L C1 C2 C3 C4 D m. pose proof tpos. assert (M : x < m < y) by (unfold m; lra). split.
  - intros Lm. pose proof (end_order e g x y m x He Hg D C1 C2 C3 C4 M (or_introl eq_refl) Lm) as E1. pose proof (end_order e g x y m y He Hg D C1 C2 C3 C4 M (or_intror eq_refl) Lm) as E2.
    pose proof (ht_affine e x y (/ 2)) as Fe. pose proof (ht_affine g x y (/ 2)) as Fg. fold m in Fe, Fg.
    destruct (gapP pl P N VP VN G e g x He Hg Ax C1 C3) as [G1|G1], (gapP pl P N VP VN G e g y He Hg Ay C2 C4) as [G2|G2]; try (rewrite Rabs_pos_eq in G1 by lra); try (rewrite Rabs_pos_eq in G2 by lra); lra.
  - intros E. destruct (meetP pl P N VP VN G g e m Hg He) as [[X|X] _]; auto; unfold cover in *; try lra.
Qed.

(** *** The partner of a piece *)
Definition dist2 (a b : point2) (q : seg2) : R := snd (center2 a b) - / 2 * (snd (fst q) + snd (snd q)).
Definition value2 (a b n : point2) (q : seg2) : R :=
  (fst (center2 (fst q) (snd q)) - fst (center2 a b)) * fst n + (snd (center2 (fst q) (snd q)) - snd (center2 a b)) * snd n.
Definition takes (a b n : point2) (q : seg2) : Prop :=
  aligned pl a b (fst q) (snd q) /\ (if rleb (Rabs (value2 a b n q)) zerotol
    then inside (lift pl (if pl_upper pl then position pl + 100 * tol else position pl - 100 * tol) (center2 a b)) = false /\ - zerotol < dist2 a b q
    else value2 a b n q < zerotol /\ - zerotol <= dist2 a b q).
Lemma partner_min a b n l : forall best,
  match partner pl inside a b n l best with
  | None => best = None /\ forall q, In q l -> ~ takes a b n q
  | Some (q, d) => (best = Some (q, d) \/ In q l /\ takes a b n q /\ d = dist2 a b q) /\ (forall q', In q' l -> takes a b n q' -> d <= dist2 a b q') /\ (forall q' d', best = Some (q', d') -> d <= d')
  end.
Proof.
  induction l as [|[v w] l IH]; intros best.
  - cbn [partner]. destruct best as [[q d]|]; [|split; [reflexivity|intros q []]]. split; [left; reflexivity|]. split; [intros q' []|]. intros q' d' E. injection E as -> ->. lra.
  - cbn [partner]. match goal with |- context [partner pl inside a b n l (if ?t then _ else _)] => set (tk := t) end.
    assert (T : tk = true <-> takes a b n (v, w) /\ match best with None => True | Some (_, m) => dist2 a b (v, w) < m end).
    { unfold tk, takes, aligned. cbn [fst snd]. fold (dist2 a b (v, w)). change (snd (center2 a b) - / 2 * (snd v + snd w)) with (dist2 a b (v, w)).
      change ((fst (center2 v w) - fst (center2 a b)) * fst n + (snd (center2 v w) - snd (center2 a b)) * snd n) with (value2 a b n (v, w)).
      assert (Cl : match best with None => true | Some (_, m) => rltb (dist2 a b (v, w)) m end = true <-> match best with None => True | Some (_, m) => dist2 a b (v, w) < m end) by (destruct best as [[? m]|]; [apply rltb_true|tauto]).
      destruct (rleb (Rabs (value2 a b n (v, w))) zerotol); rewrite !andb_true_iff, Cl, !rltb_true, ?rleb_true, ?negb_true_iff; tauto. }
    specialize (IH (if tk then Some ((v, w), dist2 a b (v, w)) else best)). change (snd (center2 a b) - / 2 * (snd v + snd w)) with (dist2 a b (v, w)).
    destruct (partner pl inside a b n l (if tk then Some ((v, w), dist2 a b (v, w)) else best)) as [[q d]|].
    + destruct IH as (H1 & H2 & H3). destruct tk.
      * destruct (proj1 T eq_refl) as [Tk Cl]. split; [|split].
        -- destruct H1 as [H1|(I & H1)]; [|right; split; [right; exact I|exact H1]]. injection H1 as <- <-. right. split; [left; reflexivity|]. split; [exact Tk|reflexivity].
        -- intros q' [<-|I] Tq; [apply (H3 (v, w)); reflexivity|apply H2; assumption].
        -- intros q' d' ->. specialize (H3 (v, w) _ eq_refl). lra.
      * split; [|split; [|exact H3]].
        -- destruct H1 as [H1|(I & H1)]; [left; exact H1|right; split; [right; exact I|exact H1]].
        -- intros q' [<-|I] Tq; [|apply H2; assumption]. destruct best as [[q0 m]|].
           ++ specialize (H3 q0 m eq_refl). apply Rnot_lt_le. intros X. assert (false = true) by (apply T; split; [exact Tq|lra]). discriminate.
           ++ assert (false = true) by (apply T; split; [exact Tq|exact I]). discriminate.
    + destruct IH as [H1 H2]. destruct tk; [discriminate H1|]. split; [exact H1|]. intros q [<-|I] Tq; [|exact (H2 q I Tq)]. subst best. assert (false = true) by (apply T; split; [exact Tq|exact I]). discriminate.
Qed.

Notation PP := (pieces_of sort_points (split_pos pl s)).
Notation NN := (map fst (pieces_of sort_points (split_neg pl s))).
Lemma onceP u u' k q q' : In u VN -> In u' VN -> fst u = fst u' -> target pl true N P u = Some (k, q) -> target pl true N P u' = Some (k, q') -> u = u'.
Proof. apply (split_once pl true N P VN VP (orderN pl P N VP VN G) (g_usedN _ _ _ _ _ G) (gapN pl P N VP VN G) (g_tol _ _ _ _ _ G)). exact (g_vertsN _ _ _ _ _ G). Qed.
Lemma onceN u u' k q q' : In u VP -> In u' VP -> fst u = fst u' -> target pl false P N u = Some (k, q) -> target pl false P N u' = Some (k, q') -> u = u'.
Proof. apply (split_once pl false P N VP VN (orderP pl P N VP VN G) (g_usedP _ _ _ _ _ G) (gapP pl P N VP VN G) (g_tol _ _ _ _ _ G)). exact (g_vertsP _ _ _ _ _ G). Qed.
Lemma nodupP : NoDup P.
Proof. pose proof (g_nodup _ _ _ _ _ G) as D. revert D. clear. induction P as [|a l IH]; [constructor|]. intros D. inversion D as [|? ? D1 D2]; subst. constructor; [intros I; apply D1; apply in_or_app; left; exact I|apply IH; exact D2]. Qed.
Lemma nodupN : NoDup N.
Proof. pose proof (g_nodup _ _ _ _ _ G) as D. revert D. clear. induction P as [|a l IH]; [auto|]. intros D. inversion D as [|? ? D1 D2]; subst. apply IH; exact D2. Qed.
Lemma orP e : In e P -> lx e < rx e. Proof. intros I. apply (g_order _ _ _ _ _ G). left. exact I. Qed.
Lemma orN e : In e N -> lx e < rx e. Proof. intros I. apply (g_order _ _ _ _ _ G). right. exact I. Qed.
Lemma pp_iff q n : In (q, n) PP <-> exists e0, In e0 (edges (pos s)) /\ n = enormal e0 /\ exists x y, pieceP (seg VP e0) x y /\ q = mk (seg VP e0) x y.
Proof. apply (pieces_iff pl sort_points Hs Hsorted true N VN (pos s) freshP nodupP orP onceP (g_vertsN _ _ _ _ _ G)). Qed.
Lemma nn_iff q : In q NN <-> exists f x y, In f N /\ pieceN f x y /\ q = mk f x y.
Proof.
  pose proof (fun n => pieces_iff pl sort_points Hs Hsorted false P VP (neg s) freshN nodupN orN onceN (g_vertsP _ _ _ _ _ G) q n) as X. split.
  - intros I. apply in_map_iff in I. destruct I as ([q' n] & E & I). cbn [fst] in E. subst q'. apply X in I. destruct I as (e0 & I0 & _ & x & y & Hp & E). exists (seg VN e0), x, y. split; [apply in_map; exact I0|auto].
  - intros (f & x & y & If & Hp & E). apply in_map_iff in If. destruct If as (e0 & E0 & I0). apply in_map_iff. exists (q, enormal e0). split; [reflexivity|]. apply X. exists e0. split; [exact I0|]. split; [reflexivity|]. exists x, y. rewrite E0. auto.
Qed.

Lemma takes_same e x y n q : In e P -> pieceP e x y -> In q NN -> takes (x, ht e x) (y, ht e y) n q -> exists g, In g N /\ pieceN g x y /\ q = mk g x y /\
  ht g (x + / 2 * (y - x)) < ht e (x + / 2 * (y - x)) /\ dist2 (x, ht e x) (y, ht e y) q = ht e (x + / 2 * (y - x)) - ht g (x + / 2 * (y - x)).
Proof.
  intros Ie Pe Iq [(_ & A1 & A2) Tk]. destruct (pieceP_facts e x y Ie Pe) as (Ax & Ay & L20 & Cx & Cy). apply nn_iff in Iq. destruct Iq as (g & x' & y' & Ig & Pg & ->). destruct (pieceN_facts g x' y' Ig Pg) as (Ax' & Ay' & L20' & Cx' & Cy').
  cbn [mk fst snd] in A1, A2. pose proof tpos as TP.
  assert (x' = x) as ->. { destruct (apartP pl P N VP VN G x x' Ax Ax') as [E|E]; [symmetry; exact E|lra]. }
  assert (y' = y) as ->. { destruct (apartP pl P N VP VN G y y' Ay Ay') as [E|E]; [symmetry; exact E|lra]. }
  assert (D : dist2 (x, ht e x) (y, ht e y) (mk g x y) = ht e (x + / 2 * (y - x)) - ht g (x + / 2 * (y - x))). { rewrite !ht_affine. unfold dist2, center2, mk. cbn [fst snd]. lra. }
  exists g. split; [exact Ig|]. split; [exact Pg|]. split; [reflexivity|]. split; [|exact D].
  assert (Lo : - zerotol <= dist2 (x, ht e x) (y, ht e y) (mk g x y)) by (destruct (rleb _ _) in Tk; lra). rewrite D in Lo.
  assert (Neg : g <> e) by (intros ->; exact (disjointPN pl P N VP VN G e Ie Ig)). pose proof (g_tol _ _ _ _ _ G).
  destruct (mid_gap g e x y (or_intror Ig) (or_introl Ie) Ax Ay ltac:(lra) Cx' Cy' Cx Cy Neg) as [M1 M2]. cbv zeta in M1, M2. apply Rnot_le_lt. intros [X|X]; [|exact (M2 X)]. specialize (M1 X). lra.
Qed.
Lemma over_inner g x y : cover g x -> cover g y -> x + 20 * tol <= y -> over g (x + 1 * tol).
Proof. pose proof tpos. unfold cover, over. lra. Qed.
Lemma generic_inner x : absc x -> ~ absc (x + 1 * tol).
Proof. intros A. apply (side_generic pl VP VN (apartP pl P N VP VN G) x 1 A). left. reflexivity. Qed.
Lemma partner_some e f x y n : In e P -> 2 * zerotol < tol * snd n -> pieceP e x y -> below e f (x + 1 * tol) ->
  exists d, partner pl inside (x, ht e x) (y, ht e y) n NN None = Some (mk f x y, d).
Proof.
  intros Ie Hn Pe B. pose proof (match_down e f x y Pe B) as Pf. pose proof B as (_ & If & Oe & Of & Lb & Non). cbn [hg] in Lb, Non.
  destruct (pieceP_facts e x y Ie Pe) as (Ax & Ay & L20 & Cx & Cy). destruct (pieceN_facts f x y If Pf) as (_ & _ & _ & Fx & Fy). pose proof tpos as TP. pose proof (g_tol _ _ _ _ _ G) as TZ.
  set (m := x + / 2 * (y - x)) in *. assert (M : x < m < y) by (unfold m; lra). assert (M1 : x < x + 1 * tol < y) by lra.
  assert (Nef : e <> f) by (intros ->; exact (disjointPN pl P N VP VN G f Ie If)).
  assert (Lm : ht f m < ht e m) by (apply (inner_order e f x y (x + 1 * tol) m); auto).
  destruct (mid_gap e f x y (or_introl Ie) (or_intror If) Ax Ay ltac:(lra) Cx Cy Fx Fy Nef) as [Gm _]. cbv zeta in Gm. fold m in Gm. specialize (Gm Lm).
  assert (D : dist2 (x, ht e x) (y, ht e y) (mk f x y) = ht e m - ht f m). { unfold m. rewrite !ht_affine. unfold dist2, center2, mk. cbn [fst snd]. lra. }
  assert (V : value2 (x, ht e x) (y, ht e y) n (mk f x y) = - (ht e m - ht f m) * snd n). { rewrite <- D. unfold value2, dist2, center2, mk. cbn [fst snd]. ring. }
  assert (Z : 0 < zerotol) by apply zero_pos.
  assert (Hp : 0 < snd n). { apply Rnot_le_lt. intros X. assert (tol * snd n <= 0) by (rewrite <- (Rmult_0_r tol); apply Rmult_le_compat_l; lra). lra. }
  assert (Big : zerotol < (ht e m - ht f m) * snd n). { assert (Y : tol * snd n < 2 * (ht e m - ht f m) * snd n) by (apply Rmult_lt_compat_r; assumption). lra. }
  assert (Tk : takes (x, ht e x) (y, ht e y) n (mk f x y)).
  { split.
    - unfold aligned, center2, mk. cbn [fst snd]. rewrite !Rminus_diag_eq, Rabs_R0 by reflexivity. lra.
    - rewrite D, V. destruct (rleb (Rabs (- (ht e m - ht f m) * snd n)) zerotol) eqn:E; [|split; lra]. apply rleb_true in E. rewrite Ropp_mult_distr_l_reverse, Rabs_Ropp, Rabs_pos_eq in E by lra. lra. }
  assert (Inn : In (mk f x y) NN) by (apply nn_iff; exists f, x, y; auto).
  pose proof (partner_min (x, ht e x) (y, ht e y) n NN None) as PM. destruct (partner pl inside (x, ht e x) (y, ht e y) n NN None) as [[q d]|]; [|destruct PM as [_ PM]; destruct (PM _ Inn Tk)].
  exists d. destruct PM as ([X|(Iq & Tq & ->)] & Min & _); [discriminate X|]. destruct (takes_same e x y n q Ie Pe Iq Tq) as (g & Ig & Pg & -> & Lg & Dg). fold m in Lg, Dg.
  specialize (Min _ Inn Tk). rewrite D, Dg in Min. destruct (classic (g = f)) as [->|Ngf]; [reflexivity|exfalso].
  destruct (pieceN_facts g x y Ig Pg) as (_ & _ & _ & Gx & Gy). assert (Neg : e <> g) by (intros ->; exact (disjointPN pl P N VP VN G g Ie Ig)).
  destruct (mid_gap g f x y (or_intror Ig) (or_intror If) Ax Ay ltac:(lra) Gx Gy Fx Fy Ngf) as [_ Nm]. cbv zeta in Nm. fold m in Nm. assert (Lfg : ht f m < ht g m) by lra.
  apply (Non g (or_intror Ig)); [apply (over_inner g x y); assumption|]. split; [apply (inner_order g f x y m); auto|apply (inner_order e g x y m); auto].
Qed.
Lemma partner_none e x y n : In e P -> pieceP e x y -> (forall f, ~ below e f (x + 1 * tol)) -> partner pl inside (x, ht e x) (y, ht e y) n NN None = None.
Proof.
  intros Ie Pe NB. pose proof (partner_min (x, ht e x) (y, ht e y) n NN None) as PM. destruct (partner pl inside (x, ht e x) (y, ht e y) n NN None) as [[q d]|]; [exfalso|reflexivity].
  destruct PM as ([X|(Iq & Tq & ->)] & _); [discriminate X|]. destruct (takes_same e x y n q Ie Pe Iq Tq) as (g & Ig & Pg & -> & Lg & _).
  destruct (pieceP_facts e x y Ie Pe) as (Ax & Ay & L20 & Cx & Cy). destruct (pieceN_facts g x y Ig Pg) as (_ & _ & _ & Gx & Gy). pose proof tpos as TP.
  assert (Neg : e <> g) by (intros ->; exact (disjointPN pl P N VP VN G g Ie Ig)). set (m := x + / 2 * (y - x)) in *. assert (M : x < m < y) by (unfold m; lra). assert (M1 : x < x + 1 * tol < y) by lra.
  destruct (lower_exists e g (x + 1 * tol) Ie (or_intror Ig) (generic_inner x Ax) (over_inner e x y Cx Cy L20) (over_inner g x y Gx Gy L20)) as [f B]; [apply (inner_order e g x y m); auto|]. exact (NB f B).
Qed.
(** The partners are the pieces of the negative edges. *)
Hypothesis normals : forall e0, In e0 (edges (pos s)) -> 2 * zerotol < tol * snd (enormal e0).
Definition partners (p : seg2 * point2) : list seg2 := match partner pl inside (fst (fst p)) (snd (fst p)) (snd p) NN None with Some (q, _) => [q] | None => [] end.
Lemma partners_cases p : In p PP -> exists e x y, In e P /\ pieceP e x y /\ fst p = mk e x y /\
  ((exists f, below e f (x + 1 * tol) /\ partners p = [mk f x y] /\ exists d, partner pl inside (fst (fst p)) (snd (fst p)) (snd p) NN None = Some (mk f x y, d)) \/
   partners p = [] /\ partner pl inside (fst (fst p)) (snd (fst p)) (snd p) NN None = None).
Proof.
  destruct p as [q n]. intros I. apply pp_iff in I. destruct I as (e0 & I0 & -> & x & y & Pe & ->). assert (Ie : In (seg VP e0) P) by (apply in_map; exact I0). set (e := seg VP e0) in *.
  exists e, x, y. split; [exact Ie|]. split; [exact Pe|]. split; [reflexivity|]. unfold partners. cbn [fst snd mk].
  destruct (classic (exists f, below e f (x + 1 * tol))) as [[f B]|NB].
  - left. exists f. split; [exact B|]. destruct (partner_some e f x y (enormal e0) Ie (normals e0 I0) Pe B) as [d E]. unfold mk in *. rewrite E. split; [reflexivity|]. exists d. reflexivity.
  - right. rewrite (partner_none e x y (enormal e0) Ie Pe) by (intros f B; apply NB; exists f; exact B). auto.
Qed.
Lemma partners_perm : Permutation (flat_map partners PP) NN.
Proof.
  assert (Mp : forall e f x, In e P -> In f P -> e <> f -> cover e x -> cover f x -> ht e x = ht f x -> end_at e x /\ end_at f x) by (intros e f x I1 I2; apply (g_meet _ _ _ _ _ G); left; assumption).
  assert (Mn : forall e f x, In e N -> In f N -> e <> f -> cover e x -> cover f x -> ht e x = ht f x -> end_at e x /\ end_at f x) by (intros e f x I1 I2; apply (g_meet _ _ _ _ _ G); right; assumption).
  apply NoDup_Permutation.
  - apply (nodup_flat fst).
    + apply (pieces_nodup pl sort_points Hs Hsorted true N VN VP (pos s) freshP nodupP orP onceP (g_vertsN _ _ _ _ _ G) Mp).
    + intros p I. unfold partners. destruct (partner _ _ _ _ _ _) as [[q d]|]; repeat constructor. intros [].
    + intros p p' q I I' Np Hq Hq'. apply Np. destruct (partners_cases p I) as (e & x & y & Ie & Pe & E & [(f & B & Pq & _)|[Pq _]]); rewrite Pq in Hq; [|destruct Hq].
      destruct (partners_cases p' I') as (e' & x' & y' & Ie' & Pe' & E' & [(f' & B' & Pq' & _)|[Pq' _]]); rewrite Pq' in Hq'; [|destruct Hq'].
      destruct Hq as [<-|[]], Hq' as [Hq'|[]]. pose proof (match_down e f x y Pe B) as Pf. pose proof (match_down e' f' x' y' Pe' B') as Pf'. pose proof B as (_ & If & _). pose proof B' as (_ & If' & _).
      assert (f' = f) as -> by (apply (mk_inj pl false P VP VN (neg s) orN Mn f' f x' y' x y); auto).
      unfold mk in Hq'. injection Hq' as -> _ -> _. rewrite E, E'. assert (e' = e) as ->; [|reflexivity]. destruct (classic (e' = e)) as [H|H]; [exact H|exfalso].
      pose proof B as (_ & _ & O1 & O2 & L & Non). pose proof B' as (_ & _ & O1' & _ & L' & Non'). cbn [hg] in *. destruct (Rtotal_order (ht e (x + 1 * tol)) (ht e' (x + 1 * tol))) as [X|[X|X]].
      * apply (Non' e (or_introl Ie) O1). lra.
      * destruct (Mp e e' (x + 1 * tol) Ie Ie' ltac:(congruence) (over_cov _ _ O1) (over_cov _ _ O1') X) as [En _]. exact (over_no_end e _ O1 En).
      * apply (Non e' (or_introl Ie') O1'). lra.
  - apply (pieces_nodup pl sort_points Hs Hsorted false P VP VN (neg s) freshN nodupN orN onceN (g_vertsP _ _ _ _ _ G) Mn).
  - intros q. split.
    + intros I. apply in_flat_map in I. destruct I as (p & I & Hq). destruct (partners_cases p I) as (e & x & y & Ie & Pe & E & [(f & B & Pq & _)|[Pq _]]); rewrite Pq in Hq; [|destruct Hq]. destruct Hq as [<-|[]].
      apply nn_iff. exists f, x, y. split; [apply B|]. split; [apply (match_down e); assumption|reflexivity].
    + intros I. apply nn_iff in I. destruct I as (f & x & y & If & Pf & ->). destruct (pieceN_facts f x y If Pf) as (Ax & Ay & L20 & Fx & Fy).
      destruct (upper_exists f (x + 1 * tol) If (generic_inner x Ax) (over_inner f x y Fx Fy L20)) as [e B]. pose proof (match_up e f x y Pf B) as Pe. pose proof B as (Ie & _).
      apply in_map_iff in Ie. destruct Ie as (e0 & E0 & I0). assert (Ip : In (mk e x y, enormal e0) PP). { apply pp_iff. exists e0. split; [exact I0|]. split; [reflexivity|]. exists x, y. unfold point2 in *. rewrite E0. auto. }
      apply in_flat_map. exists (mk e x y, enormal e0). split; [exact Ip|]. unfold partners. cbn [fst snd mk]. assert (Ie : In e P) by apply B. destruct (partner_some e f x y (enormal e0) Ie (normals e0 I0) Pe B) as [d E]. rewrite E. left. reflexivity.
Qed.

(** *** The area of the triangles *)
Hypothesis made : exists index upper lo hi switch, make_plane index upper lo hi switch = Some pl.
Notation at_face := (lift pl (position pl)).
Definition outward (t : tri pt) : Prop := area2 t = vscale (2 * tri_area t) (face_normal pl).
Definition signed2 (p q r : point2) : R := (fst q - fst p) * (snd r - snd p) - (snd q - snd p) * (fst r - fst p).
Definition directed (p q r : point2) : tri pt := if forwards pl then Tri (at_face p) (at_face q) (at_face r) else Tri (at_face q) (at_face p) (at_face r).
Lemma directed_area p q r : area2 (directed p q r) = vscale (signed2 p q r) (face_normal pl).
Proof.
  destruct made as (i & u & lo & hi & sw & E). unfold directed, face_normal, lift, signed2, forwards.
  destruct i as [|[|[|i]]]; cbn [make_plane] in E; try discriminate E; destruct sw; injection E as <-; destruct u; cbn [d1 d2 d3 pl_upper pl_switch xorb];
    unfold area2, cross, vsub, vscale, set_at, P1, P2, P3; cbn; f_equal; ring.
Qed.
Lemma normal_unit : norm (face_normal pl) = 1.
Proof.
  unfold face_normal, norm. destruct (d3 pl), (pl_upper pl); cbn [set_at px py pz]; match goal with |- sqrt ?x = 1 => replace x with 1 by ring end; apply sqrt_1.
Qed.
Lemma directed_ok p q r : 0 <= signed2 p q r -> outward (directed p q r) /\ tri_area (directed p q r) = signed2 p q r / 2.
Proof.
  intros H. pose proof (directed_area p q r) as A. assert (T : tri_area (directed p q r) = signed2 p q r / 2).
  { change (tri_area (directed p q r)) with (1 / 2 * norm (area2 (directed p q r))). rewrite A.
    replace (norm (vscale (signed2 p q r) (face_normal pl))) with (signed2 p q r * norm (face_normal pl)); [rewrite normal_unit; field|].
    unfold norm, vscale. cbn [px py pz]. set (n := face_normal pl). replace (signed2 p q r * px n * (signed2 p q r * px n) + signed2 p q r * py n * (signed2 p q r * py n) + signed2 p q r * pz n * (signed2 p q r * pz n)) with (signed2 p q r * signed2 p q r * (px n * px n + py n * py n + pz n * pz n)) by ring.
    rewrite sqrt_mult by nra. rewrite sqrt_square by exact H. reflexivity. }
  split; [|exact T]. unfold outward. rewrite A, T. f_equal. field.
Qed.
Definition middle4 (p q r t : point2) : point2 := (/ 4 * (fst p + fst q + fst r + fst t), / 4 * (snd p + snd q + snd r + snd t)).
Lemma centroid_lift p q r t : centroid [CV (at_face p) no_planes; CV (at_face q) no_planes; CV (at_face r) no_planes; CV (at_face t) no_planes] = at_face (middle4 p q r t).
Proof.
  destruct made as (i & u & lo & hi & sw & E). unfold centroid, middle4, lift. generalize (position pl). intros z. cbn [length fold_left]. replace (INR 4) with 4 by (cbn; ring).
  destruct i as [|[|[|i]]]; cbn [make_plane] in E; try discriminate E; destruct sw; injection E as <-; cbn [d1 d2 d3]; unfold vscale, vadd, set_at; cbn [px py pz c_pos fst snd]; f_equal; field.
Qed.
Definition quad4 (p q r t : point2) : list (tri pt) :=
  let g p := CV (at_face p) no_planes in poly_tris (if forwards pl then [g p; g q; g r; g t] else [g p; g t; g r; g q]).
Lemma quad_ok x y ya yb yv yw : x < y -> yv <= ya -> yw <= yb ->
  Forall outward (quad4 (x, ya) (x, yv) (y, yw) (y, yb)) /\ sum tri_area (quad4 (x, ya) (x, yv) (y, yw) (y, yb)) = (y - x) * (/ 2 * (ya + yb) - / 2 * (yv + yw)).
Proof.
  intros L La Lb. set (z := middle4 (x, ya) (x, yv) (y, yw) (y, yb)).
  assert (D : forall p q, directed p q z = if forwards pl then Tri (at_face p) (at_face q) (at_face z) else Tri (at_face q) (at_face p) (at_face z)) by reflexivity.
  assert (Q : Permutation (quad4 (x, ya) (x, yv) (y, yw) (y, yb)) [directed (x, ya) (x, yv) z; directed (x, yv) (y, yw) z; directed (y, yw) (y, yb) z; directed (y, yb) (x, ya) z]).
  { rewrite !D. unfold quad4. destruct (forwards pl); cbn [poly_tris ring map combine app]; unfold fan_tri; cbn [fst snd c_pos]; rewrite centroid_lift.
    - apply Permutation_refl.
    - replace (middle4 (x, ya) (y, yb) (y, yw) (x, yv)) with z; [|unfold z, middle4; cbn [fst snd]; f_equal; ring].
      etransitivity; [|apply Permutation_sym, Permutation_rev]. cbn [rev app]. apply Permutation_refl. }
  assert (S1 : signed2 (x, ya) (x, yv) z = (ya - yv) * ((y - x) / 2)) by (unfold signed2, z, middle4; cbn [fst snd]; field).
  assert (S2 : signed2 (x, yv) (y, yw) z = ((ya + yb) - (yv + yw)) * ((y - x) / 4)) by (unfold signed2, z, middle4; cbn [fst snd]; field).
  assert (S3 : signed2 (y, yw) (y, yb) z = (yb - yw) * ((y - x) / 2)) by (unfold signed2, z, middle4; cbn [fst snd]; field).
  assert (S4 : signed2 (y, yb) (x, ya) z = ((ya + yb) - (yv + yw)) * ((y - x) / 4)) by (unfold signed2, z, middle4; cbn [fst snd]; field).
  assert (H2 : 0 <= (y - x) / 2) by lra. assert (H4 : 0 <= (y - x) / 4) by lra.
  destruct (directed_ok (x, ya) (x, yv) z) as [O1 A1]; [rewrite S1; apply Rmult_le_pos; lra|].
  destruct (directed_ok (x, yv) (y, yw) z) as [O2 A2]; [rewrite S2; apply Rmult_le_pos; lra|].
  destruct (directed_ok (y, yw) (y, yb) z) as [O3 A3]; [rewrite S3; apply Rmult_le_pos; lra|].
  destruct (directed_ok (y, yb) (x, ya) z) as [O4 A4]; [rewrite S4; apply Rmult_le_pos; lra|].
  split; [apply (Permutation_Forall (Permutation_sym Q)); repeat constructor; assumption|].
  rewrite (sum_perm _ _ _ Q). cbn [sum]. rewrite A1, A2, A3, A4, S1, S2, S3, S4. field.
Qed.
Hypothesis low : forall v, In v VP -> bottom2 pl <= snd v.
Lemma low_edge e x : In e P -> cover e x -> bottom2 pl <= ht e x.
Proof.
  intros Ie C. destruct (g_endsP _ _ _ _ _ G e Ie) as [I1 I2]. apply low in I1, I2. pose proof (orP e Ie) as O. rewrite <- ht_left in I1. rewrite <- (ht_right e O) in I2.
  set (k := (x - lx e) / (rx e - lx e)). assert (E : x = lx e + k * (rx e - lx e)) by (unfold k; field; lra). assert (K : 0 <= k <= 1).
  { unfold cover in C. unfold k. split; [apply Rmult_le_pos; [lra|left; apply Rinv_0_lt_compat; lra]|]. apply (Rmult_le_reg_r (rx e - lx e)); [lra|]. field_simplify; lra. }
  rewrite E, ht_affine. nra.
Qed.
Lemma strip_area p : In p PP -> Forall outward (strip_tris pl inside NN p) /\ sum tri_area (strip_tris pl inside NN p) = under (bottom2 pl) (fst p) - sum_under (bottom2 pl) (partners p).
Proof.
  intros I. destruct (partners_cases p I) as (e & x & y & Ie & Pe & E & Cs). destruct p as [q n]. cbn [fst snd] in E, Cs. subst q. destruct (pieceP_facts e x y Ie Pe) as (Ax & Ay & L20 & Cx & Cy). pose proof tpos as TP.
  assert (L : x < y) by lra. unfold strip_tris. cbn [mk fst snd] in *. destruct Cs as [(f & B & -> & d & ->)|[-> ->]].
  - pose proof (match_down e f x y Pe B) as Pf. pose proof B as (_ & If & _ & _ & Lb & _). cbn [hg] in Lb. destruct (pieceN_facts f x y If Pf) as (_ & _ & _ & Fx & Fy).
    assert (Nef : e <> f) by (intros ->; exact (disjointPN pl P N VP VN G f Ie If)). assert (M1 : x < x + 1 * tol < y) by lra.
    pose proof (end_order e f x y (x + 1 * tol) x (or_introl Ie) (or_intror If) Nef Cx Cy Fx Fy M1 (or_introl eq_refl) Lb) as E1. pose proof (end_order e f x y (x + 1 * tol) y (or_introl Ie) (or_intror If) Nef Cx Cy Fx Fy M1 (or_intror eq_refl) Lb) as E2.
    unfold mk. cbn [fst snd sum_under fold_right]. unfold under. cbn [fst snd].
    destruct (rltb (Rabs (ht f x - ht e x)) tol) eqn:R1; [|destruct (rltb (Rabs (ht f y - ht e y)) tol) eqn:R2].
    + apply rltb_true in R1. assert (Ex : ht f x = ht e x). { destruct (gapP pl P N VP VN G f e x (or_intror If) (or_introl Ie) Ax Fx Cx) as [X|X]; [exact X|lra]. }
      assert (S : signed2 (x, ht f x) (y, ht f y) (y, ht e y) = (y - x) * (ht e y - ht f y)) by (unfold signed2; cbn [fst snd]; ring).
      destruct (directed_ok (x, ht f x) (y, ht f y) (y, ht e y)) as [O A]; [rewrite S; apply Rmult_le_pos; lra|]. split; [constructor; [exact O|constructor]|]. cbn [sum].
      fold (directed (x, ht f x) (y, ht f y) (y, ht e y)). rewrite A, S, Ex. field.
    + apply rltb_true in R2. assert (Ey : ht f y = ht e y). { destruct (gapP pl P N VP VN G f e y (or_intror If) (or_introl Ie) Ay Fy Cy) as [X|X]; [exact X|lra]. }
      assert (S : signed2 (x, ht f x) (y, ht f y) (x, ht e x) = (y - x) * (ht e x - ht f x)) by (unfold signed2; cbn [fst snd]; ring).
      destruct (directed_ok (x, ht f x) (y, ht f y) (x, ht e x)) as [O A]; [rewrite S; apply Rmult_le_pos; lra|]. split; [constructor; [exact O|constructor]|]. cbn [sum].
      fold (directed (x, ht f x) (y, ht f y) (x, ht e x)). rewrite A, S, Ey. field.
    + destruct (quad_ok x y (ht e x) (ht e y) (ht f x) (ht f y) L E1 E2) as [O A]. split; [exact O|]. etransitivity; [exact A|]. ring.
  - cbn [fst]. destruct (quad_ok x y (ht e x) (ht e y) (bottom2 pl) (bottom2 pl) L (low_edge e x Ie Cx) (low_edge e y Ie Cy)) as [O A]. split; [exact O|]. etransitivity; [exact A|]. unfold under, sum_under, mk. cbn [fst snd fold_right]. field.
Qed.
(** All triangles point outwards, and their areas add up to the area below the positive edges without the area below the
    negative ones. *)
Theorem face_area : Forall outward (flat_map (strip_tris pl inside NN) PP) /\
  sum tri_area (flat_map (strip_tris pl inside NN) PP) = sum_under (bottom2 pl) P - sum_under (bottom2 pl) N.
Proof.
  assert (X : forall l, (forall p, In p l -> In p PP) -> Forall outward (flat_map (strip_tris pl inside NN) l) /\
    sum tri_area (flat_map (strip_tris pl inside NN) l) = sum_under (bottom2 pl) (map fst l) - sum_under (bottom2 pl) (flat_map partners l)).
  { induction l as [|p l IH]; intros H; [split; [constructor|cbn; ring]|]. destruct (IH (fun q I => H q (or_intror I))) as [IO IA]. destruct (strip_area p (H p (or_introl eq_refl))) as [O A]. cbn [flat_map map]. split; [apply Forall_app; split; assumption|].
    rewrite sum_app, sum_under_app, IA, A. change (sum_under (bottom2 pl) (fst p :: map fst l)) with (under (bottom2 pl) (fst p) + sum_under (bottom2 pl) (map fst l)). lra. }
  destruct (X PP (fun p I => I)) as [O A]. split; [exact O|]. rewrite A. rewrite (sum_under_perm _ _ _ partners_perm).
  rewrite (pieces_sum pl sort_points Hs Hsorted true N VN (pos s) freshP nodupP orP onceP (g_vertsN _ _ _ _ _ G)).
  rewrite (pieces_sum pl sort_points Hs Hsorted false P VP (neg s) freshN nodupN orN onceN (g_vertsP _ _ _ _ _ G)). reflexivity.
Qed.
End Area.
