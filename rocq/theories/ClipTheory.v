(** Clipping of cyclic lists: number of changes, normal form up to rotation. *)
From Coq Require Import List Arith Bool Lia.
From Verif Require Import ClipModel.
Import ListNotations.

(** Rotations of a cyclic list. *)
Definition rot {A} (l l' : list A) : Prop := exists x y, l = x ++ y /\ l' = y ++ x.
Lemma rot_refl {A} (l : list A) : rot l l.
Proof. exists [], l. rewrite app_nil_r. split; reflexivity. Qed.
Lemma rot_sym {A} (l l' : list A) : rot l l' -> rot l' l.
Proof. intros (x & y & -> & ->). exists y, x. split; reflexivity. Qed.
Lemma rot_map {A B} (f : A -> B) l l' : rot l l' -> rot (map f l) (map f l').
Proof. intros (x & y & -> & ->). exists (map f x), (map f y). rewrite !map_app. split; reflexivity. Qed.
Lemma rot_in {A} (l l' : list A) x : rot l l' -> In x l -> In x l'.
Proof. intros (u & v & -> & ->). rewrite !in_app_iff. tauto. Qed.
Lemma rot_length {A} (l l' : list A) : rot l l' -> length l = length l'.
Proof. intros (u & v & -> & ->). rewrite !app_length. lia. Qed.
Lemma rot_ind {A} (T : list A -> Prop) : (forall x l, T (x :: l) -> T (l ++ [x])) -> forall l l', rot l l' -> T l -> T l'.
Proof.
  intros H l l' (u & v & -> & ->). revert v. induction u as [|a u IH]; intros v; cbn [app]; [rewrite app_nil_r; auto|].
  intros Ht. apply H in Ht. rewrite <- app_assoc in Ht. apply IH in Ht. rewrite <- app_assoc in Ht. exact Ht.
Qed.
Lemma last_cons {A} (a : A) l d : last (a :: l) d = last l a.
Proof. revert a d. induction l as [|b l IH]; intros a d; [reflexivity|]. change (last (a :: b :: l) d) with (last (b :: l) d). rewrite !IH. reflexivity. Qed.
Lemma last_app {A} (l l' : list A) d : last (l ++ l') d = last l' (last l d).
Proof. revert d. induction l as [|a l IH]; intros d; [reflexivity|]. cbn [app]. rewrite !last_cons. apply IH. Qed.
Lemma last_in {A} (l : list A) d : l <> [] -> In (last l d) l.
Proof. revert d. induction l as [|a l IH]; intros d H; [congruence|]. rewrite last_cons. destruct l as [|b l]; [left; reflexivity|]. right. apply IH. discriminate. Qed.
Lemma last_default {A} (l : list A) d d' : l <> [] -> last l d = last l d'.
Proof. destruct l as [|a l]; [congruence|]. intros _. rewrite !last_cons. reflexivity. Qed.

Section Generic.
Context {V : Type}.
Variables (sd : V -> side) (inter : V -> V -> V) (mark : V -> V).

(** What is added for the edge from a to b. *)
Definition out (a b : V) : list V :=
  match sd b with
  | Front => match sd a with Behind => [inter a b] | _ => [] end
  | On => match sd a with Behind => [mark b] | _ => [] end
  | Behind => match sd a with Front => [inter a b; b] | On => [mark a; b] | Behind => [b] end
  end.
Fixpoint path (a : V) (l : list V) : list V := match l with [] => [] | b :: l => out a b ++ path b l end.
Definition gclip (l : list V) : list V := match l with [] => [] | x :: _ => path (last l x) l end.
Definition behind (v : V) : bool := match sd v with Behind => true | _ => false end.

Lemma path_app a x y : path a (x ++ y) = path a x ++ path (last x a) y.
Proof. revert a. induction x as [|b x IH]; intros a; [reflexivity|]. cbn [app path]. rewrite IH, last_cons, app_assoc. reflexivity. Qed.
Lemma gclip_rot l l' : rot l l' -> rot (gclip l) (gclip l').
Proof.
  intros (x & y & -> & ->). destruct x as [|a x]; [rewrite app_nil_r; apply rot_refl|]. destruct y as [|b y]; [rewrite app_nil_r; apply rot_refl|].
  cbn [gclip app]. change (a :: x ++ b :: y) with ((a :: x) ++ b :: y). change (b :: y ++ a :: x) with ((b :: y) ++ a :: x). rewrite !path_app.
  eexists _, _. split; [reflexivity|]. rewrite !last_app. f_equal; f_equal; apply last_default; discriminate.
Qed.

(** Changes of a boolean along a path and around a cycle. *)
Section Changes.
Variable f : V -> bool.
Definition diff (a b : bool) : nat := if xorb a b then 1 else 0.
Fixpoint ch (a : V) (l : list V) : nat := match l with [] => 0 | b :: l => diff (f a) (f b) + ch b l end.
Definition cyc (l : list V) : nat := match l with [] => 0 | x :: _ => ch (last l x) l end.
Lemma ch_app a x y : ch a (x ++ y) = ch a x + ch (last x a) y.
Proof. revert a. induction x as [|b x IH]; intros a; [reflexivity|]. cbn [app ch]. rewrite IH, last_cons. lia. Qed.
Lemma cyc_rot l l' : rot l l' -> cyc l = cyc l'.
Proof.
  intros (x & y & -> & ->). destruct x as [|a x]; [rewrite app_nil_r; reflexivity|]. destruct y as [|b y]; [rewrite app_nil_r; reflexivity|].
  cbn [cyc app]. change (a :: x ++ b :: y) with ((a :: x) ++ b :: y). change (b :: y ++ a :: x) with ((b :: y) ++ a :: x).
  rewrite !ch_app, !last_app, !last_cons. lia.
Qed.
Lemma diff_self a : diff a a = 0. Proof. destruct a; reflexivity. Qed.
Lemma ch_closed x l : cyc l <= ch x (l ++ [x]).
Proof.
  destruct l as [|a l]; cbn [cyc]; [lia|]. cbn [app ch]. rewrite ch_app. rewrite last_cons. cbn [ch].
  destruct (f x), (f a), (f (last l a)); cbn; lia.
Qed.
(** [between]: the new vertex has the value of its neighbours if they agree. *)
Hypothesis inter_ok : forall a b, (sd a = Behind /\ sd b = Front) \/ (sd a = Front /\ sd b = Behind) -> f a = f b -> f (inter a b) = f a.
Hypothesis mark_ok : forall a, f (mark a) = f a.
Lemma path_changes : forall l a x z, ch x (path a l ++ [z]) <= diff (f x) (f a) + ch a (l ++ [z]).
Proof.
  induction l as [|b l IH]; intros a x z; cbn [path app ch]; [destruct (f x), (f a), (f z); cbn; lia|].
  rewrite <- app_assoc. unfold out. destruct (sd b) eqn:Sb, (sd a) eqn:Sa; cbn [app ch];
    try (specialize (IH b x z); destruct (f x), (f a), (f b); cbn in *; lia).
  - specialize (IH b (inter a b) z). assert (K := inter_ok a b (or_introl (conj Sa Sb))).
    destruct (f x), (f a), (f b); try rewrite K in * by reflexivity; destruct (f (inter a b)); cbn in *; lia.
  - specialize (IH b b z). rewrite diff_self in IH. assert (K := inter_ok a b (or_intror (conj Sa Sb))).
    destruct (f x), (f a), (f b); try rewrite K in * by reflexivity; try destruct (f (inter a b)); cbn in *; lia.
  - specialize (IH b b z). rewrite diff_self in IH. destruct (f x), (f a), (f b); cbn in *; lia.
  - specialize (IH b b z). rewrite diff_self in IH. rewrite mark_ok. destruct (f x), (f a), (f b); cbn in *; lia.
  - specialize (IH b (mark b) z). rewrite mark_ok in *. destruct (f x), (f a), (f b); cbn in *; lia.
Qed.
Lemma clip_changes l : cyc (gclip l) <= cyc l.
Proof.
  destruct l as [|b l]; [reflexivity|]. cbn [gclip]. set (a := last (b :: l) b). eapply Nat.le_trans; [apply (ch_closed a)|].
  eapply Nat.le_trans; [apply path_changes|]. rewrite diff_self, ch_app. cbn [ch cyc]. 
  replace (last (b :: l) a) with a by (apply last_default; discriminate). rewrite diff_self. fold a. cbn [ch]. lia.
Qed.
(** Two changes: an arc of true, an arc of false. *)
Lemma ch_one a l : f a = true -> f (last l a) = false -> ch a l <= 1 -> exists x y, l = x ++ y /\ (forall v, In v x -> f v = true) /\ (forall v, In v y -> f v = false).
Proof.
  revert a. induction l as [|b l IH]; intros a Ha Hl Hc; [cbn in Hl; congruence|]. rewrite last_cons in Hl. cbn [ch] in Hc. rewrite Ha in Hc.
  destruct (f b) eqn:Fb; cbn [diff xorb] in Hc.
  - destruct (IH b Fb Hl Hc) as (x & y & -> & X & Y). exists (b :: x), y. split; [reflexivity|]. split; [|exact Y].
    intros v [<-|I]; [exact Fb | exact (X v I)].
  - exists [], (b :: l). split; [reflexivity|]. split; [intros v [] |]. assert (Z : ch b l = 0) by (cbn in Hc; lia). clear IH Hc Ha Hl a.
    revert b Fb Z. induction l as [|c l IH]; intros b Fb Z v; [intros [<-|[]]; exact Fb|].
    cbn [ch] in Z. rewrite Fb in Z. destruct (f c) eqn:Fc; [cbn in Z; lia|]. intros [<-|I]; [exact Fb|]. exact (IH c Fc Z v I).
Qed.
Lemma true_prefix l : (exists v, In v l /\ f v = false) -> exists x v y, l = x ++ v :: y /\ (forall u, In u x -> f u = true) /\ f v = false.
Proof.
  induction l as [|a l IH]; intros (v & I & F); [destruct I|]. destruct (f a) eqn:Fa.
  - destruct I as [->|I]; [congruence|]. destruct (IH (ex_intro _ v (conj I F))) as (x & u & y & -> & X & U).
    exists (a :: x), u, y. split; [reflexivity|]. split; [|exact U]. intros w [<-|J]; [exact Fa | exact (X w J)].
  - exists [], a, l. split; [reflexivity|]. split; [intros u [] | exact Fa].
Qed.
Lemma two_arcs l : cyc l <= 2 -> (forall v, In v l -> f v = true) \/ (forall v, In v l -> f v = false) \/
  exists x y, x <> [] /\ y <> [] /\ rot l (x ++ y) /\ (forall v, In v x -> f v = true) /\ (forall v, In v y -> f v = false).
Proof.
  intros C. destruct (forallb f l) eqn:A; [left; apply forallb_forall, A|].
  destruct (existsb f l) eqn:E; [|right; left; intros v I; destruct (f v) eqn:Fv; [|reflexivity]; exfalso;
    enough (existsb f l = true) by congruence; apply existsb_exists; exists v; split; assumption].
  right; right. apply existsb_exists in E as (t & It & Ft).
  assert (exists u, In u l /\ f u = false) as (u & Iu & Fu).
  { clear -A. induction l as [|a l IH]; [discriminate|]. cbn [forallb] in A. destruct (f a) eqn:Fa.
    - destruct (IH A) as (u & I & F). exists u. split; [right; exact I | exact F].
    - exists a. split; [left; reflexivity | exact Fa]. }
  (* a rotation that starts with true and ends with false *)
  assert (exists a m, rot l (a :: m) /\ f a = true /\ f (last m a) = false) as (a & m & R & Fa & Fl).
  { destruct l as [|h l]; [destruct It|]. destruct (f h) eqn:Fh.
    - destruct (f (last l h)) eqn:Fe.
      + (* true ... true: rotate the true prefix to the end *)
        destruct (true_prefix (rev (h :: l)) (ex_intro _ u (conj (proj1 (in_rev _ _) Iu) Fu))) as (x & v & y & Er & X & Fv).
        assert (El : h :: l = rev y ++ v :: rev x).
        { rewrite <- (rev_involutive (h :: l)), Er, rev_app_distr. cbn [rev]. rewrite <- app_assoc. reflexivity. }
        destruct (rev x) as [|b rx] eqn:Ex.
        { exfalso. assert (last (h :: l) h = v) by (rewrite El, last_app; reflexivity). rewrite last_cons in H. congruence. }
        exists b, (rx ++ rev y ++ [v]). split; [|split].
        * exists (rev y ++ [v]), (b :: rx). rewrite El, <- app_assoc. split; reflexivity.
        * apply X. rewrite in_rev, Ex. left; reflexivity.
        * rewrite !last_app. exact Fv.
      + exists h, l. split; [apply rot_refl|]. split; assumption.
    - assert (exists x v y, h :: l = x ++ v :: y /\ (forall w, In w x -> f w = false) /\ f v = true) as (x & v & y & El & X & Fv).
      { clear -It Ft. revert It. generalize (h :: l). intros k. induction k as [|a k IH]; intros I; [destruct I|]. destruct (f a) eqn:Fa.
        - exists [], a, k. split; [reflexivity|]. split; [intros w [] | exact Fa].
        - destruct I as [->|I]; [congruence|]. destruct (IH I) as (x & v & y & -> & X & Fv). exists (a :: x), v, y.
          split; [reflexivity|]. split; [|exact Fv]. intros w [<-|J]; [exact Fa | exact (X w J)]. }
      destruct x as [|b x]; [cbn in El; injection El as -> ->; congruence|]. exists v, (y ++ b :: x). split; [|split].
      + exists (b :: x), (v :: y). split; [exact El | reflexivity].
      + exact Fv.
      + rewrite last_app. apply X. apply last_in. discriminate. }
  rewrite (cyc_rot _ _ R) in C. cbn [cyc] in C. rewrite last_cons in C. cbn [ch] in C. rewrite Fl, Fa in C. cbn in C.
  destruct (ch_one a m Fa Fl ltac:(lia)) as (x & y & -> & X & Y). exists (a :: x), y. split; [discriminate|]. split.
  { intros ->. rewrite app_nil_r in Fl. destruct x as [|b x]; [cbn in Fl; congruence|]. specialize (X (last (b :: x) a) (last_in (b :: x) a ltac:(discriminate))). congruence. }
  split; [exact R|]. split; [|exact Y]. intros v [<-|I]; [exact Fa | exact (X v I)].
Qed.
End Changes.

(** The vertices on the plane where the polygon enters and leaves. *)
Definition join (a b : V) : V := match sd a, sd b with On, _ => mark a | _, On => mark b | _, _ => inter a b end.
Lemma path_behind a l : behind a = true -> (forall v, In v l -> behind v = true) -> path a l = l.
Proof.
  unfold behind. revert a. induction l as [|b l IH]; intros a A H; [reflexivity|]. cbn [path].
  assert (B := H b (or_introl eq_refl)). rewrite (IH b B) by (intros v I; exact (H v (or_intror I))). unfold out.
  destruct (sd b); try discriminate. destruct (sd a); try discriminate. reflexivity.
Qed.
Lemma path_front a l : behind a = false -> (forall v, In v l -> behind v = false) -> path a l = [].
Proof.
  unfold behind. revert a. induction l as [|b l IH]; intros a A H; [reflexivity|]. cbn [path].
  assert (B := H b (or_introl eq_refl)). rewrite (IH b B) by (intros v I; exact (H v (or_intror I))). unfold out.
  destruct (sd b), (sd a); try discriminate; reflexivity.
Qed.
(** The normal form: all behind, none behind, or an arc [b0..b1] behind and an arc [n0..n1] that is not. *)
Inductive clipped (l : list V) : list V -> Prop :=
| clipped_all : (forall v, In v l -> behind v = true) -> clipped l l
| clipped_none : (forall v, In v l -> behind v = false) -> clipped l []
| clipped_arcs : forall b0 bs n0 ns r, rot l ((b0 :: bs) ++ n0 :: ns) ->
    (forall v, In v (b0 :: bs) -> behind v = true) -> (forall v, In v (n0 :: ns) -> behind v = false) ->
    rot r (join (last ns n0) b0 :: (b0 :: bs) ++ [join (last bs b0) n0]) -> clipped l r.
Lemma gclip_clipped l : cyc behind l <= 2 -> clipped l (gclip l).
Proof.
  intros C. destruct (two_arcs behind l C) as [A | [N | (x & y & Hx & Hy & R & X & Y)]].
  - assert (E : gclip l = l).
    { destruct l as [|a l]; [reflexivity|]. cbn [gclip]. apply path_behind; [apply A, last_in; discriminate | exact A]. }
    rewrite E. apply clipped_all, A.
  - assert (E : gclip l = []).
    { destruct l as [|a l]; [reflexivity|]. cbn [gclip]. apply path_front; [apply N, last_in; discriminate | exact N]. }
    rewrite E. apply clipped_none, N.
  - destruct x as [|b0 bs]; [congruence|]. destruct y as [|n0 ns]; [congruence|].
    apply (clipped_arcs l b0 bs n0 ns _ R X Y). assert (G := gclip_rot _ _ R).
    assert (E : gclip ((b0 :: bs) ++ n0 :: ns) = join (last ns n0) b0 :: (b0 :: bs) ++ [join (last bs b0) n0]).
    { cbn [gclip app]. change (b0 :: bs ++ n0 :: ns) with ((b0 :: bs) ++ n0 :: ns). rewrite path_app, last_app, !last_cons.
      cbn [path]. rewrite (path_behind b0 bs) by (try (apply X; left; reflexivity); intros v I; apply X; right; exact I).
      rewrite (path_front n0 ns) by (try (apply Y; left; reflexivity); intros v I; apply Y; right; exact I). rewrite app_nil_r.
      assert (B0 := X b0 (or_introl eq_refl)). assert (N0 := Y n0 (or_introl eq_refl)).
      assert (B1 : behind (last bs b0) = true) by (rewrite <- (last_cons b0 bs b0); apply X, last_in; discriminate).
      assert (N1 : behind (last ns n0) = false) by (rewrite <- (last_cons n0 ns n0); apply Y, last_in; discriminate).
      unfold out, join, behind in *. destruct (sd b0), (sd n0), (sd (last bs b0)), (sd (last ns n0)); try discriminate; cbn [app]; reflexivity. }
    rewrite <- E. exact G.
Qed.
Lemma clipped_length l r : clipped l r -> length r <= S (length l).
Proof.
  intros [A | N | b0 bs n0 ns r' R X Y E].
  - lia.
  - cbn. lia.
  - apply rot_length in R. apply rot_length in E. rewrite E, R. cbn [length app]. rewrite !app_length. cbn [length]. lia.
Qed.
End Generic.

Lemma rot_trans {A} (l l' l'' : list A) : rot l l' -> rot l' l'' -> rot l l''.
Proof.
  intros (x & y & -> & ->) (u & v & E & ->). destruct (Nat.le_gt_cases (length y) (length u)) as [L|L].
  - assert (exists z, u = y ++ z /\ x = z ++ v) as (z & -> & ->).
    { revert u E L. induction y as [|a y IH]; intros u E L; [exists u; split; [reflexivity | exact E]|].
      destruct u as [|b u]; [cbn in L; lia|]. cbn in E. injection E as -> E. destruct (IH u E ltac:(cbn in L; lia)) as (z & -> & ->). exists z. split; reflexivity. }
    exists z, (v ++ y). rewrite !app_assoc. split; reflexivity.
  - assert (exists z, y = u ++ z /\ v = z ++ x) as (z & -> & ->).
    { revert y E L. induction u as [|a u IH]; intros y E L; [exists y; split; [reflexivity | symmetry; exact E]|].
      destruct y as [|b y]; [cbn in L; lia|]. cbn in E. injection E as -> E. destruct (IH y E ltac:(cbn in L; lia)) as (z & -> & ->). exists z. split; reflexivity. }
    exists (x ++ u), z. rewrite !app_assoc. split; reflexivity.
Qed.

(** Edges of a cyclic list. *)
Fixpoint pairs {A} (a : A) (l : list A) : list (A * A) := match l with [] => [] | b :: l => (a, b) :: pairs b l end.
Definition cedges {A} (l : list A) : list (A * A) := match l with [] => [] | x :: _ => pairs (last l x) l end.
Lemma pairs_app {A} (a : A) x y : pairs a (x ++ y) = pairs a x ++ pairs (last x a) y.
Proof. revert a. induction x as [|b x IH]; intros a; [reflexivity|]. cbn [app pairs]. rewrite IH, last_cons. reflexivity. Qed.
Lemma cedges_rot {A} (l l' : list A) e : rot l l' -> In e (cedges l) -> In e (cedges l').
Proof.
  intros (x & y & -> & ->). destruct x as [|a x]; [rewrite app_nil_r; auto|]. destruct y as [|b y]; [rewrite app_nil_r; auto|].
  cbn [cedges app]. change (a :: x ++ b :: y) with ((a :: x) ++ b :: y). change (b :: y ++ a :: x) with ((b :: y) ++ a :: x).
  rewrite !pairs_app, !last_app, !last_cons, !in_app_iff. tauto.
Qed.
Lemma pairs_in {A} (a : A) l u v : In (u, v) (pairs a l) -> In u (a :: l) /\ In v l.
Proof.
  revert a. induction l as [|b l IH]; intros a; cbn [pairs]; [intros []|]. intros [E|I]; [injection E as <- <-; split; left; reflexivity|].
  apply IH in I as [U W]. split; right; assumption.
Qed.
Lemma cedges_in {A} (l : list A) u v : In (u, v) (cedges l) -> In u l /\ In v l.
Proof.
  destruct l as [|a l]; cbn [cedges]; [intros []|]. intros I. apply pairs_in in I as [U W]. split; [|exact W].
  destruct U as [<-|U]; [apply last_in; discriminate | exact U].
Qed.
(** Clipping commutes with maps. *)
Lemma gclip_map {V W} (g : V -> W) sd inter mark sd' inter' mark' l :
  (forall v, In v l -> sd' (g v) = sd v) -> (forall a b, In a l -> In b l -> g (inter a b) = inter' (g a) (g b)) -> (forall v, In v l -> g (mark v) = mark' (g v)) ->
  map g (gclip sd inter mark l) = gclip sd' inter' mark' (map g l).
Proof.
  intros Hs Hi Hm.
  assert (P : forall m a, In a l -> (forall v, In v m -> In v l) -> map g (path sd inter mark a m) = path sd' inter' mark' (g a) (map g m)).
  { induction m as [|b m IH]; intros a Ia Im; [reflexivity|]. cbn [path map]. rewrite map_app.
    rewrite (IH b) by (try (apply Im; left; reflexivity); intros v I; apply Im; right; exact I). f_equal.
    assert (Ib : In b l) by (apply Im; left; reflexivity). unfold out. rewrite !Hs by assumption.
    destruct (sd b), (sd a); cbn [map]; rewrite ?Hi, ?Hm by assumption; reflexivity. }
  destruct l as [|x l]; [reflexivity|]. cbn [gclip map]. rewrite P; [|apply last_in; discriminate | auto].
  f_equal. assert (L : forall m d, last (map g m) (g d) = g (last m d)).
  { induction m as [|b m IH]; intros d; [reflexivity|]. cbn [map]. rewrite !last_cons. apply IH. }
  symmetry. apply (L (x :: l) x).
Qed.
