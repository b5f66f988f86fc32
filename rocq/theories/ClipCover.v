(** The triangles of a clipped polygon cover it; the result of clipping a mesh. *)
From Coq Require Import Reals List Arith Bool Sorted Lia Lra.
From Verif Require Import Geo MappingModel TrimmedQuadModel MeshModel MeshProofs MeshGeoModel MeshGeoProofs ClipModel ClipTheory ClipPlane ClipArea ClipProofs ClipInv ClipMeshProofs.
Import ListNotations.
Local Open Scope R_scope.

Lemma forallb_false {A} (g : A -> bool) l : forallb g l = false -> exists v, In v l /\ g v = false.
Proof.
  induction l as [|a l IH]; [discriminate|]. cbn [forallb]. destruct (g a) eqn:G; [|intros _; exists a; split; [left; reflexivity | exact G]].
  intros Al. destruct (IH Al) as (v & I & K). exists v. split; [right; exact I | exact K].
Qed.
Lemma pairs_change {A} (g : A -> bool) l : forall a, g a = true -> (exists v, In v l /\ g v = false) -> exists u v, In (u, v) (pairs a l) /\ g u = true /\ g v = false.
Proof.
  induction l as [|b l IH]; intros a Ga (v & I & Gv); [destruct I|]. cbn [pairs]. destruct (g b) eqn:Gb.
  - destruct I as [<-|I]; [congruence|]. destruct (IH b Gb (ex_intro _ v (conj I Gv))) as (u & w & J & K). exists u, w. split; [right; exact J | exact K].
  - exists a, b. split; [left; reflexivity | split; assumption].
Qed.
Lemma ring_change {A} (g : A -> bool) l : (exists v, In v l /\ g v = true) -> (exists v, In v l /\ g v = false) -> exists u v, In (u, v) (ring l) /\ g u = true /\ g v = false.
Proof.
  intros (p & Ip & Gp) (q & Iq & Gq). destruct l as [|x r]; [destruct Ip|]. unfold ring. rewrite ring_pairs. destruct (g x) eqn:Gx.
  - apply pairs_change; [exact Gx|]. destruct Iq as [<-|Iq]; [congruence|]. exists q. split; [apply in_or_app; left; exact Iq | exact Gq].
  - destruct Ip as [<-|Ip]; [congruence|]. apply in_split in Ip as (r1 & r2 & ->).
    destruct (pairs_change g (r2 ++ [x]) p Gp) as (u & v & J & K); [exists x; split; [apply in_or_app; right; left; reflexivity | exact Gx]|].
    exists u, v. split; [|exact K]. rewrite <- app_assoc. cbn [app]. rewrite pairs_app. apply in_or_app. right. cbn [pairs]. right. exact J.
Qed.
Lemma ring_in {A} (l : list A) u v : In (u, v) (ring l) -> In u l /\ In v l.
Proof.
  destruct l as [|x r]; [intros []|]. unfold ring. intros I. split; [exact (in_combine_l _ _ _ _ I)|]. apply in_combine_r in I. apply in_app_or in I as [I|[<-|[]]]; [right; exact I | left; reflexivity].
Qed.
(** Ring edges of an oriented polygon have the polygon on their left. *)
Lemma ring_nth {A} (l : list A) u v : In (u, v) (ring l) -> exists i, nth_error l i = Some u /\ ((nth_error l (S i) = Some v) \/ (S i = length l /\ nth_error l 0 = Some v)).
Proof.
  destruct l as [|x r]; [intros []|]. unfold ring. intros I. apply In_nth_error in I as [i E].
  assert (L : (i < length (combine (x :: r) (r ++ [x])))%nat) by (apply nth_error_Some; congruence). rewrite combine_length, app_length in L. cbn [length] in L.
  assert (G : nth_error (x :: r) i = Some u /\ nth_error (r ++ [x]) i = Some v).
  { assert (H : forall (a b : list A) i, nth_error (combine a b) i = Some (u, v) -> nth_error a i = Some u /\ nth_error b i = Some v).
    { induction a as [|p a IH]; intros [|q b] [|j] H; try discriminate; cbn in *; [injection H as -> ->; split; reflexivity | exact (IH b j H)]. }
    exact (H _ _ _ E). }
  destruct G as [A1 A2]. exists i. split; [exact A1|]. destruct (lt_dec i (length r)) as [H|H].
  - left. rewrite nth_error_app1 in A2 by exact H. exact A2.
  - right. assert (i = length r) as -> by lia. split; [reflexivity|]. rewrite nth_error_app2, Nat.sub_diag in A2 by lia. exact A2.
Qed.
Lemma ring_left l u v w : oriented l -> In (u, v) (ring l) -> In w l -> 0 <= orient u v w.
Proof.
  intros O I W. apply ring_nth in I as (i & Eu & Ev). apply In_nth_error in W as [k Ew].
  assert (Lk : (k < length l)%nat) by (apply nth_error_Some; congruence).
  destruct Ev as [Ev | [Li Ev]].
  - destruct (le_dec (S i) k) as [H|H]; [apply (O i (S i) k); try assumption; lia|]. rewrite orient_cyc, orient_cyc. apply (O k i (S i)); try assumption; lia.
  - rewrite orient_cyc. apply (O 0%nat k i); try assumption; lia.
Qed.
Lemma hull_orient l a b x : (forall w, In w l -> 0 <= orient a b w) -> hull l x -> 0 <= orient a b x.
Proof. intros H X. apply (X (fun p => 0 <= orient a b p)); [apply half_convex', orient_affine | exact H]. Qed.
(** Barycentric coordinates. *)
Lemma bary_hull a b z x : 0 < orient a b z -> 0 <= orient x b z -> 0 <= orient a x z -> 0 <= orient a b x -> hull [a; b; z] x.
Proof.
  intros D A B C. set (d := orient a b z) in *. assert (Sm : orient x b z + orient a x z + orient a b x = d) by (unfold d, orient, cr; ring).
  assert (Ex : forall (g : p2 -> R), affine g -> d * g x = orient x b z * g a + orient a x z * g b + orient a b x * g z).
  { intros g (c & u & v & E). rewrite !E. unfold d, orient, cr. ring. }
  intros K HK I. assert (Ia := I a (or_introl eq_refl)). assert (Ib := I b (or_intror (or_introl eq_refl))). assert (Iz := I z (or_intror (or_intror (or_introl eq_refl)))).
  assert (F1 := Ex fst ltac:(exists 0, 1, 0; intros p; ring)). assert (F2 := Ex snd ltac:(exists 0, 0, 1; intros p; ring)).
  set (al := orient x b z) in *. set (be := orient a x z) in *. set (ga := orient a b x) in *.
  destruct (Req_dec (al + be) 0) as [Z|Z].
  - assert (al = 0) by lra. assert (be = 0) by lra. replace x with z; [exact Iz|]. destruct x as [x1 x2], z as [z1 z2]. cbn [fst snd] in *.
    assert (ga = d) by lra. f_equal; apply Rmult_eq_reg_l with d; nra.
  - assert (P : K (mix (be / (al + be)) a b)).
    { apply HK; [exact Ia | exact Ib|]. split; [apply Rmult_le_pos; [lra | apply Rlt_le, Rinv_0_lt_compat; lra]|].
      apply Rmult_le_reg_r with (al + be); [lra|]. unfold Rdiv. rewrite Rmult_assoc, Rinv_l by lra. lra. }
    replace x with (mix (ga / d) (mix (be / (al + be)) a b) z).
    + apply HK; [exact P | exact Iz|]. split; [apply Rmult_le_pos; [lra | apply Rlt_le, Rinv_0_lt_compat; lra]|].
      apply Rmult_le_reg_r with d; [lra|]. unfold Rdiv. rewrite Rmult_assoc, Rinv_l by lra. lra.
    + destruct x as [x1 x2]. unfold mix. cbn [fst snd] in *. assert (Eg : ga = d - al - be) by lra.
      f_equal; apply Rmult_eq_reg_l with d; try lra.
      * rewrite F1, Eg. field. split; lra.
      * rewrite F2, Eg. field. split; lra.
Qed.
Lemma centroid_sum f l : affine f -> l <> [] -> INR (length l) * f (centroid2 l) = sum2 f l.
Proof.
  intros (c & a & b & E) N. assert (P : 0 < INR (length l)) by (apply lt_0_INR; destruct l; [congruence | cbn [length]; lia]).
  assert (S : forall m, sum2 f m = INR (length m) * c + a * sum2 fst m + b * sum2 snd m).
  { induction m as [|p m IH]; [unfold sum2; cbn [fold_right length INR]; ring|]. change (sum2 f (p :: m)) with (f p + sum2 f m). change (length (p :: m)) with (Datatypes.S (length m)). rewrite S_INR, IH, E.
    change (sum2 fst (p :: m)) with (fst p + sum2 fst m). change (sum2 snd (p :: m)) with (snd p + sum2 snd m). ring. }
  rewrite S, E. unfold centroid2. cbn [fst snd]. field. lra.
Qed.
Lemma sum2_zero f l : (forall v, In v l -> 0 <= f v) -> sum2 f l = 0 -> forall v, In v l -> f v = 0.
Proof.
  induction l as [|a l IH]; intros P Z v I; [destruct I|]. change (f a + sum2 f l = 0) in Z.
  assert (N : 0 <= sum2 f l). { clear - P. induction l as [|b l IH]; [unfold sum2; cbn; lra|]. change (0 <= f b + sum2 f l). assert (0 <= f b) by (apply P; right; left; reflexivity).
    assert (0 <= sum2 f l) by (apply IH; intros w [<-|Iw]; apply P; [left; reflexivity | right; right; exact Iw]). lra. }
  assert (Pa := P a (or_introl eq_refl)). destruct I as [<-|I]; [lra|]. apply IH; [intros w Iw; apply P; right; exact Iw | lra | exact I].
Qed.
(** The triangles between the centroid and the edges cover the polygon. *)
Lemma fan_covers l x : l <> [] -> oriented l -> hull l x -> exists a b, In (a, b) (ring l) /\ hull [a; b; centroid2 l] x.
Proof.
  intros N O X. set (z := centroid2 l). assert (Hz := centroid_hull l N). fold z in Hz.
  assert (Ne : exists a b, In (a, b) (ring l)) by (destruct l as [|a [|b r]]; [congruence | exists a, a; left; reflexivity | exists a, b; left; reflexivity]).
  assert (Dec : x = z \/ x <> z) by (destruct x as [x1 x2], z as [z1 z2]; destruct (Req_dec x1 z1) as [->|]; [destruct (Req_dec x2 z2) as [->|]; [left; reflexivity|]|]; right; intros E; injection E; congruence).
  destruct Dec as [->|D].
  { destruct Ne as (a & b & I). exists a, b. split; [exact I|]. apply hull_in. right; right; left; reflexivity. }
  set (f := orient z x). assert (Af : affine f) by apply orient_affine.
  assert (Fz : f z = 0) by (unfold f, orient, cr; ring). assert (Fx : f x = 0) by (unfold f, orient, cr; ring).
  destruct (existsb (negf f) l) eqn:Ex.
  - apply existsb_exists in Ex as (p & Ip & Gp).
    destruct (forallb (negf f) l) eqn:Al.
    + exfalso. rewrite forallb_forall in Al. assert (f z < 0); [|lra]. apply (Hz (fun p => f p < 0)); [apply half_convex, Af|]. intros v I. apply negf_true, Al, I.
    + assert (Q : exists v, In v l /\ negf f v = false).
      { exact (forallb_false _ _ Al). }
      destruct (ring_change (negf f) l (ex_intro _ p (conj Ip Gp)) Q) as (a & b & I & Ga & Gb). apply negf_true in Ga. apply negf_false in Gb.
      exists a, b. split; [exact I|]. assert (Lx : 0 <= orient a b x) by (apply (hull_orient l); [intros w W; exact (ring_left l a b w O I W) | exact X]).
      assert (E1 : orient x b z = f b) by (unfold f, orient, cr; ring). assert (E2 : orient a x z = - f a) by (unfold f, orient, cr; ring).
      assert (Sm : orient x b z + orient a x z + orient a b x = orient a b z) by (unfold orient, cr; ring).
      apply bary_hull; lra.
  - (* all vertices on one line through x *)
    assert (Fn : forall v, In v l -> 0 <= f v).
    { intros v I. apply negf_false. destruct (negf f v) eqn:G; [|reflexivity]. exfalso. enough (existsb (negf f) l = true) by congruence. apply existsb_exists. exists v. split; assumption. }
    assert (Z := centroid_sum f l Af N). fold z in Z. rewrite Fz, Rmult_0_r in Z. assert (F0 := sum2_zero f l Fn (eq_sym Z)).
    set (g := fun p : p2 => (fst x - fst z) * (fst p - fst x) + (snd x - snd z) * (snd p - snd x)).
    assert (Ag : affine g) by (exists (- (fst x - fst z) * fst x - (snd x - snd z) * snd x), (fst x - fst z), (snd x - snd z); intros p; unfold g; ring).
    assert (Dp : 0 < (fst x - fst z) * (fst x - fst z) + (snd x - snd z) * (snd x - snd z)).
    { assert (A := Rle_0_sqr (fst x - fst z)). assert (B := Rle_0_sqr (snd x - snd z)). unfold Rsqr in A, B. destruct (Req_dec ((fst x - fst z) * (fst x - fst z) + (snd x - snd z) * (snd x - snd z)) 0) as [Z0|Z0]; [|lra].
      exfalso. apply D. destruct x as [x1 x2], z as [z1 z2]. cbn [fst snd] in *. assert ((x1 - z1) * (x1 - z1) = 0) by lra. assert ((x2 - z2) * (x2 - z2) = 0) by lra. f_equal; nra. }
    assert (Gz : g z < 0) by (unfold g; lra). assert (Gx : g x = 0) by (unfold g; ring).
    assert (N1 : exists v, In v l /\ negf g v = true).
    { destruct (existsb (negf g) l) eqn:E1; [apply existsb_exists in E1 as (v & K); exists v; exact K|]. exfalso. assert (0 <= g z); [|lra].
      apply (Hz (fun p => 0 <= g p)); [apply half_convex', Ag|]. intros v I. apply negf_false. destruct (negf g v) eqn:G; [|reflexivity]. exfalso. enough (existsb (negf g) l = true) by congruence. apply existsb_exists. exists v. split; assumption. }
    assert (N2 : exists v, In v l /\ negf g v = false).
    { destruct (existsb (fun v => negb (negf g v)) l) eqn:E1; [apply existsb_exists in E1 as (v & K1 & K2); exists v; split; [exact K1 | apply negb_true_iff, K2]|]. exfalso. assert (g x < 0); [|lra].
      apply (X (fun p => g p < 0)); [apply half_convex, Ag|]. intros v I. apply negf_true. destruct (negf g v) eqn:G; [reflexivity|]. exfalso.
      enough (existsb (fun v => negb (negf g v)) l = true) by congruence. apply existsb_exists. exists v. rewrite G. split; [exact I | reflexivity]. }
    destruct (ring_change (negf g) l N1 N2) as (a & b & I & Ga & Gb). apply negf_true in Ga. apply negf_false in Gb.
    destruct (ring_in l a b I) as [Ia Ib]. assert (Fa := F0 a Ia). assert (Fb := F0 b Ib).
    exists a, b. split; [exact I|].
    assert (Hs : x = mix (g a / (g a - g b)) a b).
    { assert (Gd : g a - g b <> 0) by lra. unfold f, orient, cr in Fa, Fb. unfold g in *. destruct x as [x1 x2], z as [z1 z2], a as [a1 a2], b as [b1 b2]. unfold mix. cbn [fst snd] in *.
      set (u := x1 - z1) in *. set (w := x2 - z2) in *.
      assert (Ca : u * (a2 - x2) = w * (a1 - x1)) by (unfold u, w; lra). assert (Cb : u * (b2 - x2) = w * (b1 - x1)) by (unfold u, w; lra).
      set (A1 := a1 - x1) in *. set (A2 := a2 - x2) in *. set (B1 := b1 - x1) in *. set (B2 := b2 - x2) in *.
      assert (K1 : (u * A1 + w * A2) * B1 = (u * B1 + w * B2) * A1).
      { assert (w * A2 * B1 = w * B2 * A1); [|lra]. 
        assert (w * (A2 * B1) = w * (B2 * A1)); [|lra]. destruct (Req_dec w 0) as [->|Nw]; [ring|]. f_equal. apply Rmult_eq_reg_l with w; [|exact Nw].
        transitivity (A2 * (w * B1)); [ring|]. rewrite <- Cb. transitivity (B2 * (u * A2)); [ring|]. rewrite Ca. ring. }
      assert (K2 : (u * A1 + w * A2) * B2 = (u * B1 + w * B2) * A2).
      { assert (u * (A1 * B2) = u * (B1 * A2)); [|lra]. destruct (Req_dec u 0) as [->|Nu]; [ring|]. f_equal. apply Rmult_eq_reg_l with u; [|exact Nu].
        transitivity (A1 * (u * B2)); [ring|]. rewrite Cb. transitivity (B1 * (w * A1)); [ring|]. rewrite <- Ca. ring. }
      set (ga := u * A1 + w * A2) in *. set (gb := u * B1 + w * B2) in *.
      f_equal; apply Rmult_eq_reg_l with (ga - gb); try exact Gd.
      - transitivity ((ga - gb) * a1 + ga * (b1 - a1)); [|field; exact Gd]. replace a1 with (A1 + x1) by (unfold A1; ring). replace b1 with (B1 + x1) by (unfold B1; ring). lra.
      - transitivity ((ga - gb) * a2 + ga * (b2 - a2)); [|field; exact Gd]. replace a2 with (A2 + x2) by (unfold A2; ring). replace b2 with (B2 + x2) by (unfold B2; ring). lra. }
    rewrite Hs. apply hull_convex; [apply hull_in; left; reflexivity | apply hull_in; right; left; reflexivity|].
    assert (Dn : g a - g b < 0) by lra. assert (Iv := Rinv_lt_0_compat _ Dn). split.
    + unfold Rdiv. assert (T : 0 <= (- g a) * (- / (g a - g b))) by (apply Rmult_le_pos; lra). lra.
    + replace 1 with ((g a - g b) * / (g a - g b)) by (apply Rinv_r; lra). unfold Rdiv. assert (T : 0 <= g b * (- / (g a - g b))) by (apply Rmult_le_pos; lra). lra.
Qed.
