(** Areas of the parts of a polygon between parallel planes add up. *)
From Coq Require Import Reals List Arith Bool Lia Lra.
From Verif Require Import Geo MappingModel TrimmedQuadModel MeshModel MeshGeoModel MeshGeoProofs ClipModel ClipTheory ClipPlane ClipArea.
Import ListNotations.
Local Open Scope R_scope.

Lemma clip2_ext h h' eps l : (forall p, h p = h' p) -> clip2 h eps l = clip2 h' eps l.
Proof.
  intros E. unfold clip2. assert (K := gclip_map (fun p : p2 => p) (sd2 h eps) (inter2 h) (fun p => p) (sd2 h' eps) (inter2 h') (fun p => p) l).
  rewrite !map_id in K. apply K; intros; [unfold sd2; rewrite E; reflexivity | unfold inter2; rewrite !E; reflexivity | reflexivity].
Qed.

(** No vertex is within the tolerance of the plane. *)
Definition clear (h : p2 -> R) (eps : R) (p : p2) : Prop := eps < Rabs (h p).
Lemma clear_side h eps p : 0 <= eps -> clear h eps p -> (sd2 h eps p = Behind /\ h p < - eps) \/ (sd2 h eps p = Front /\ eps < h p).
Proof.
  intros E C. unfold clear, Rabs in C. unfold sd2. destruct (Rcase_abs (h p)); [left | right];
    destruct (Rlt_dec eps (h p)), (Rlt_dec (h p) (- eps)); try lra; split; try reflexivity; lra.
Qed.
Definition crossing (h : p2 -> R) (eps : R) (a b : p2) : Prop := (sd2 h eps a = Behind /\ sd2 h eps b = Front) \/ (sd2 h eps a = Front /\ sd2 h eps b = Behind).
Lemma path_vertex h eps l : 0 <= eps -> forall a v, clear h eps a -> (forall u, In u l -> clear h eps u) ->
  In v (path (sd2 h eps) (inter2 h) (fun p => p) a l) -> (In v l /\ h v < - eps) \/ exists u w, In (u, w) (pairs a l) /\ crossing h eps u w /\ v = inter2 h u w.
Proof.
  intros E. induction l as [|b l IH]; intros a v Ca Cl I; [destruct I|]. cbn [path] in I. apply in_app_or in I as [I|I].
  - assert (Cb := Cl b (or_introl eq_refl)). unfold out in I. destruct (clear_side h eps a E Ca) as [[Sa Ha]|[Sa Ha]], (clear_side h eps b E Cb) as [[Sb Hb]|[Sb Hb]];
      rewrite Sa, Sb in I.
    + destruct I as [<-|[]]. left. split; [left; reflexivity | exact Hb].
    + destruct I as [<-|[]]. right. exists a, b. split; [left; reflexivity|]. split; [left; split; assumption | reflexivity].
    + destruct I as [<-|[<-|[]]]; [|left; split; [left; reflexivity | exact Hb]]. right. exists a, b. split; [left; reflexivity|]. split; [right; split; assumption | reflexivity].
    + destruct I.
  - destruct (IH b v) as [[J H]|(u & w & J & K)]; [apply Cl; left; reflexivity | intros u J; apply Cl; right; exact J | exact I | |].
    + left. split; [right; exact J | exact H].
    + right. exists u, w. split; [right; exact J | exact K].
Qed.
Lemma clip_vertex h eps l v : 0 <= eps -> (forall u, In u l -> clear h eps u) -> In v (clip2 h eps l) ->
  (In v l /\ h v < - eps) \/ exists u w, In (u, w) (cedges l) /\ crossing h eps u w /\ v = inter2 h u w.
Proof.
  intros E C I. destruct l as [|x l]; [destruct I|]. unfold clip2 in I. cbn [gclip] in I. revert I. apply path_vertex; [exact E | apply C, last_in; discriminate | exact C].
Qed.
Lemma clip_nonpos h eps l v : affine h -> 0 <= eps -> (forall u, In u l -> clear h eps u) -> In v (clip2 h eps l) -> h v <= 0.
Proof.
  intros A E C I. destruct (clip_vertex h eps l v E C I) as [[_ H]|(u & w & _ & X & ->)]; [lra|]. destruct (cross_param h eps A E u w X) as (_ & -> & _). lra.
Qed.

(** *** Two parallel planes *)
Section Double.
Variables (h : p2 -> R) (g eps : R).
Hypothesis h_affine : affine h.
Hypothesis eps_pos : 0 <= eps.
Hypothesis gap : eps < g.
Let h' := fun p => h p + g.
Let sd := sd2 h eps.
Let sd' := sd2 h' eps.
Let pathh := path sd (inter2 h) (fun p => p).
Let pathh' := path sd' (inter2 h') (fun p => p).
Lemma inter_left a b : h a <> 0 -> h a - h b <> 0 -> inter2 h' a (inter2 h a b) = inter2 h' a b.
Proof.
  intros N D. unfold inter2 at 1. assert (Z : h (inter2 h a b) = 0) by (unfold inter2; rewrite (affine_mix h _ a b h_affine); field; exact D).
  unfold h' at 1 2 3. rewrite Z. unfold inter2, mix, h'. cbn [fst snd]. f_equal; field; split; lra.
Qed.
Lemma inter_right a b : h b <> 0 -> h a - h b <> 0 -> inter2 h' (inter2 h a b) b = inter2 h' a b.
Proof.
  intros N D. unfold inter2 at 1. assert (Z : h (inter2 h a b) = 0) by (unfold inter2; rewrite (affine_mix h _ a b h_affine); field; exact D).
  unfold h' at 1 2 3. rewrite Z. unfold inter2, mix, h'. cbn [fst snd]. f_equal; field; split; lra.
Qed.
Definition rel (a p : p2) : Prop := (sd a = Behind /\ p = a) \/ (sd a = Front /\ sd' p = Front).
Lemma front_front a : sd a = Front -> sd' a = Front.
Proof.
  unfold sd, sd', sd2, h'. destruct (Rlt_dec eps (h a)); [|destruct (Rlt_dec (h a) (- eps)); discriminate]. intros _.
  destruct (Rlt_dec eps (h a + g)); [reflexivity | lra].
Qed.
Lemma cross_front a b : crossing h eps a b -> sd' (inter2 h a b) = Front.
Proof.
  intros X. destruct (cross_param h eps h_affine eps_pos a b X) as (_ & Z & _). unfold sd', sd2, h'. rewrite Z. destruct (Rlt_dec eps (0 + g)); [reflexivity | lra].
Qed.
Lemma side_h a : clear h eps a -> (sd a = Behind /\ h a < - eps) \/ (sd a = Front /\ eps < h a).
Proof. apply clear_side, eps_pos. Qed.
Lemma double_path l : forall a p, rel a p -> (forall u, In u (a :: l) -> clear h eps u) -> (forall u, In u (a :: l) -> clear h' eps u) ->
  pathh' p (pathh a l) = pathh' a l /\ rel (last l a) (last (pathh a l) p).
Proof.
  induction l as [|b l IH]; intros a p Hr C C'; [split; [reflexivity | exact Hr]|]. unfold pathh, pathh'. cbn [path]. fold pathh. fold pathh'.
  assert (Ca := C a (or_introl eq_refl)). assert (Cb := C b (or_intror (or_introl eq_refl))). assert (Cb' := C' b (or_intror (or_introl eq_refl))). assert (Ca' := C' a (or_introl eq_refl)).
  assert (T : forall u, In u (b :: l) -> clear h eps u) by (intros u I; apply C; right; exact I).
  assert (T' : forall u, In u (b :: l) -> clear h' eps u) by (intros u I; apply C'; right; exact I).
  unfold pathh'. rewrite path_app. fold pathh'. rewrite last_cons, last_app.
  destruct (side_h a Ca) as [[Sa Ha]|[Sa Ha]], (side_h b Cb) as [[Sb Hb]|[Sb Hb]]; destruct Hr as [[Sa2 Ep]|[Sa2 Ep]]; try congruence.
  - (* behind, behind *)
    subst p. assert (O : out sd (inter2 h) (fun p => p) a b = [b]) by (unfold out; rewrite Sa, Sb; reflexivity). rewrite O. unfold pathh'. cbn [path last app].
    destruct (IH b b) as [E L]; [left; split; [exact Sb | reflexivity] | exact T | exact T' |]. unfold pathh, pathh' in *. rewrite E. split; [rewrite app_nil_r; reflexivity | exact L].
  - (* behind, front *)
    subst p. assert (O : out sd (inter2 h) (fun p => p) a b = [inter2 h a b]) by (unfold out; rewrite Sa, Sb; reflexivity). rewrite O. unfold pathh'. cbn [path last app].
    assert (X : crossing h eps a b) by (left; split; assumption). assert (F := cross_front a b X). destruct (cross_param h eps h_affine eps_pos a b X) as (_ & _ & N).
    destruct (IH b (inter2 h a b)) as [E L]; [right; split; assumption | exact T | exact T' |]. unfold pathh, pathh' in *. rewrite E. split; [|exact L]. rewrite app_nil_r. f_equal.
    assert (F2 := front_front b Sb). unfold out. rewrite F, F2. destruct (sd' a); try reflexivity. f_equal. apply inter_left; [lra | exact N].
  - (* front, behind *)
    assert (O : out sd (inter2 h) (fun p => p) a b = [inter2 h a b; b]) by (unfold out; rewrite Sa, Sb; reflexivity). rewrite O. unfold pathh'. cbn [path last app].
    assert (X : crossing h eps a b) by (right; split; assumption). assert (F := cross_front a b X). destruct (cross_param h eps h_affine eps_pos a b X) as (_ & _ & N).
    destruct (IH b b) as [E L]; [left; split; [exact Sb | reflexivity] | exact T | exact T' |]. unfold pathh, pathh' in *. rewrite E. split; [|exact L]. rewrite app_nil_r. f_equal.
    assert (F2 := front_front a Sa). unfold out. rewrite F, Ep, F2. cbn [app].
    destruct (clear_side h' eps b eps_pos Cb') as [[Sb' _]|[Sb' _]]; fold sd' in Sb'; rewrite Sb'; [|reflexivity]. f_equal. apply inter_right; [lra | exact N].
  - (* front, front *)
    assert (O : out sd (inter2 h) (fun p => p) a b = []) by (unfold out; rewrite Sa, Sb; reflexivity). rewrite O. unfold pathh'. cbn [path last app].
    destruct (IH b p) as [E L]; [right; split; assumption | exact T | exact T' |]. unfold pathh, pathh' in *. rewrite E. split; [|exact L].
    assert (F2 := front_front a Sa). assert (F3 := front_front b Sb). unfold out. rewrite F2, F3. reflexivity.
Qed.
Lemma double_clip l : (forall u, In u l -> clear h eps u) -> (forall u, In u l -> clear h' eps u) -> clip2 h' eps (clip2 h eps l) = clip2 h' eps l.
Proof.
  intros C C'. destruct l as [|x l]; [reflexivity|]. unfold clip2 at 2 3. cbn [gclip]. set (m := x :: l) in *. set (a := last m x).
  assert (Ia : In a m) by (apply last_in; discriminate). fold sd sd' pathh pathh'. fold (pathh a m). fold (pathh' a m).
  assert (Hr : rel a a) by (destruct (side_h a (C a Ia)) as [[S _]|[S _]]; [left; split; [exact S | reflexivity] | right; split; [exact S | apply front_front, S]]).
  destruct (double_path m a a Hr) as [E L]; [intros u [<-|I]; auto | intros u [<-|I]; auto |].
  assert (La : last m a = a) by (unfold a; apply last_default; discriminate). rewrite La in L. destruct (pathh a m) as [|y r] eqn:Ep; [exact E|].
  unfold clip2. cbn [gclip]. fold sd' pathh'. change (pathh' (last (y :: r) y) (y :: r) = pathh' a m).
  assert (L2 : last (y :: r) y = last (y :: r) a) by (apply last_default; discriminate). rewrite L2.
  destruct (double_path m a (last (y :: r) a) L) as [E2 _]; [intros u [<-|I]; auto | intros u [<-|I]; auto |]. rewrite Ep in E2. exact E2.
Qed.
End Double.

(** *** Slabs *)
Section Slabs.
Variables (x : p2 -> R) (eps : R) (c : nat -> R) (n : nat).
Hypothesis x_affine : affine x.
Hypothesis eps_pos : 0 <= eps.
Hypothesis c_gap : forall i, c i + eps < c (S i).
Definition low (s : R) : p2 -> R := fun p => s - x p.
Definition high (s : R) : p2 -> R := fun p => x p - s.
Lemma low_affine s : affine (low s).
Proof. destruct x_affine as (k & a & b & E). exists (s - k), (- a), (- b). intros p. unfold low. rewrite E. ring. Qed.
Lemma high_affine s : affine (high s).
Proof. destruct x_affine as (k & a & b & E). exists (k - s), a, b. intros p. unfold high. rewrite E. ring. Qed.
Definition slab (l : list p2) (i : nat) : list p2 := clip2 (high (c (S i))) eps (clip2 (low (c i)) eps l).
Lemma clear_low_high s p : clear (low s) eps p <-> clear (high s) eps p.
Proof. unfold clear, low, high. rewrite Rabs_minus_sym. reflexivity. Qed.
Lemma low_clear_next l i : (forall u, In u l -> clear (low (c i)) eps u) -> (forall u, In u l -> clear (low (c (S i))) eps u) ->
  forall u, In u (clip2 (low (c i)) eps l) -> clear (low (c (S i))) eps u.
Proof.
  intros C C' u I. destruct (clip_vertex _ _ _ _ eps_pos C I) as [[J _]|(a & b & _ & X & ->)]; [apply C', J|].
  destruct (cross_param _ _ (low_affine (c i)) eps_pos a b X) as (_ & Z & _). unfold clear, low in *. specialize (c_gap i).
  replace (c (S i) - x (inter2 (fun p => c i - x p) a b)) with (c (S i) - c i + (c i - x (inter2 (fun p => c i - x p) a b))) by ring. rewrite Z, Rabs_pos_eq; lra.
Qed.
Lemma slab_area l i : convex_poly l -> (forall u, In u l -> clear (low (c i)) eps u) -> (forall u, In u l -> clear (low (c (S i))) eps u) ->
  area_of (slab l i) = area_of (clip2 (low (c i)) eps l) - area_of (clip2 (low (c (S i))) eps l).
Proof.
  intros Cv C C'. unfold slab. assert (Cv' := clip_convex _ _ (low_affine (c i)) eps_pos l Cv).
  assert (B := both_sides (low (c (S i))) eps _ (low_affine _) eps_pos Cv' (low_clear_next l i C C')).
  rewrite (clip2_ext (fun p => - low (c (S i)) p) (high (c (S i)))) in B by (intros p; unfold low, high; ring).
  assert (G : eps < c (S i) - c i) by (specialize (c_gap i); lra).
  assert (D := double_clip (low (c i)) (c (S i) - c i) eps (low_affine _) eps_pos G l C).
  assert (Ex : forall p, low (c i) p + (c (S i) - c i) = low (c (S i)) p) by (intros p; unfold low; ring).
  rewrite !(clip2_ext (fun p => low (c i) p + (c (S i) - c i)) (low (c (S i)))) in D by exact Ex.
  rewrite D in B; [lra|]. intros u I. unfold clear. rewrite Ex. apply C', I.
Qed.
Lemma slabs_area l : convex_poly l -> (forall u i, In u l -> (i <= n)%nat -> clear (low (c i)) eps u) -> (forall u, In u l -> c 0%nat < x u < c n) ->
  sum (fun i => area_of (slab l i)) (seq 0 n) = area_of l.
Proof.
  intros Cv C B.
  assert (T : forall k m, (k + m <= n)%nat -> sum (fun i => area_of (slab l i)) (seq k m) = area_of (clip2 (low (c k)) eps l) - area_of (clip2 (low (c (k + m)%nat)) eps l)).
  { intros k m. revert k. induction m as [|m IH]; intros k L; cbn [seq sum]; [rewrite Nat.add_0_r; ring|]. rewrite IH by lia.
    rewrite slab_area; [|exact Cv | intros u I; apply C; [exact I | lia] | intros u I; apply C; [exact I | lia]].
    replace (S k + m)%nat with (k + S m)%nat by lia. ring. }
  rewrite T by lia. cbn [Nat.add].
  assert (E0 : clip2 (low (c 0%nat)) eps l = l).
  { destruct l as [|y r] eqn:El; [reflexivity|]. rewrite <- El in *. unfold clip2. rewrite El at 1. cbn [gclip]. rewrite <- El.
    assert (K : forall u, In u l -> behind (sd2 (low (c 0%nat)) eps) u = true).
    { intros u I. unfold behind. destruct (clear_side _ _ u eps_pos (C u 0%nat I ltac:(lia))) as [[-> _]|[_ F]]; [reflexivity|]. specialize (B u I). unfold low in F. lra. }
    apply path_behind; [apply K, last_in; rewrite El; discriminate | exact K]. }
  assert (En : clip2 (low (c n)) eps l = []).
  { destruct l as [|y r] eqn:El; [reflexivity|]. rewrite <- El in *. unfold clip2. rewrite El at 1. cbn [gclip]. rewrite <- El.
    assert (K : forall u, In u l -> behind (sd2 (low (c n)) eps) u = false).
    { intros u I. unfold behind. destruct (clear_side _ _ u eps_pos (C u n I ltac:(lia))) as [[_ F]|[-> _]]; [|reflexivity]. specialize (B u I). unfold low in F. lra. }
    apply path_front; [apply K, last_in; rewrite El; discriminate | exact K]. }
  rewrite E0, En. cbn [area_of]. ring.
Qed.
End Slabs.
