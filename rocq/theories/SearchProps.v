(** C49: the search tree over bounding boxes. *)
From Coq Require Import List Arith Bool ZArith Lia Permutation.
From Verif Require Import StlModel SearchModel Perm SearchProofs SearchInsert SearchQuery.
Import ListNotations.

(** *** Specification *)
Section Spec.
Variable A : arith.
(** a <= b on the coordinates. *)
Definition leq (a b : num A) : Prop := ltb A b a = false.
(** A point lies in a box; a box has its bounds in the right order. *)
Definition point_in (p : vec (num A)) (b : aabb A) : Prop :=
  (leq (vx (lo A b)) (vx p) /\ leq (vx p) (vx (up A b))) /\
  (leq (vy (lo A b)) (vy p) /\ leq (vy p) (vy (up A b))) /\
  (leq (vz (lo A b)) (vz p) /\ leq (vz p) (vz (up A b))).
Definition proper (b : aabb A) : Prop :=
  leq (vx (lo A b)) (vx (up A b)) /\ leq (vy (lo A b)) (vy (up A b)) /\ leq (vz (lo A b)) (vz (up A b)).
(** The i-th insertion was that of particle p with box b, and it was refused (f = true) or not. *)
Definition call (l : list (nat * aabb A)) (refused : list bool) (i p : nat) (b : aabb A) (f : bool) : Prop :=
  nth_error l i = Some (p, b) /\ nth_error refused i = Some f.
(** Coordinates of the vertices of triangles. *)
Definition vertex_of (v : vec (num A)) (t : vec (num A) * vec (num A) * vec (num A)) : Prop :=
  let '(a, b, c) := t in v = a \/ v = b \/ v = c.
Definition coords : list (vec (num A) -> num A) := [@vx _; @vy _; @vz _].
End Spec.

(** *** Lemmas *)
Section Lemmas.
Variable A : arith.
Hypothesis HA : ordered A.
Notation box := (aabb A).

Lemma overlap_point (a b : box) : valid A a -> valid A b -> (overlap A a b = true <-> exists p, point_in A p a /\ point_in A p b).
Proof.
  intros (V1 & V2 & V3) (W1 & W2 & W3). unfold overlap. rewrite negb_true_iff, !orb_false_iff. split.
  - intros (((((K1 & K2) & K3) & K4) & K5) & K6).
    exists (Vec (dmax A (vx (lo A a)) (vx (lo A b))) (dmax A (vy (lo A a)) (vy (lo A b))) (dmax A (vz (lo A a)) (vz (lo A b)))).
    assert (G : forall l l' u u', le A l u -> le A l' u -> le A l u' -> le A l' u' ->
      (leq A l (dmax A l l') /\ leq A (dmax A l l') u) /\ (leq A l' (dmax A l l') /\ leq A (dmax A l l') u')).
    { intros l l' u u' H1 H2 H3 H4. split; split; try apply (dmax_l A HA); try apply (dmax_r A HA); unfold dmax; destruct (ltb A l l'); assumption. }
    unfold point_in. cbn [vx vy vz].
    destruct (G _ _ _ _ V1 K2 K1 W1) as [G1 G2]. destruct (G _ _ _ _ V2 K4 K3 W2) as [G3 G4]. destruct (G _ _ _ _ V3 K6 K5 W3) as [G5 G6]. auto 10.
  - intros (p & ((P1 & P2) & (P3 & P4) & (P5 & P6)) & ((Q1 & Q2) & (Q3 & Q4) & (Q5 & Q6))).
    repeat split; eapply (le_trans A HA); eassumption.
Qed.

Lemma accepted_spec l : forall ps refused out, accepted A ps l = (refused, out) ->
  length refused = length l /\
  (forall i p b f, call A l refused i p b f ->
    (f = true <-> ~ proper A b \/ In p (map fst ps) \/ exists j b', j < i /\ call A l refused j p b' false)) /\
  (forall p b, In (p, b) out <-> In (p, b) ps \/ exists i, call A l refused i p b false) /\
  (NoDup (map fst ps) -> NoDup (map fst out)) /\
  (Forall (fun e => proper A (snd e)) ps -> Forall (fun e => proper A (snd e)) out).
Proof.
  assert (V : forall b, bad_bounds A b = false <-> proper A b).
  { intros b. rewrite bad_bounds_valid. unfold valid, vle, proper, le, leq. tauto. }
  induction l as [ | [p b] l IH]; intros ps refused out E; cbn [accepted] in E.
  - injection E as <- <-. split; [reflexivity | ]. split; [intros i p b f [H _]; destruct i; discriminate | ].
    split; [ | auto]. intros p b. split; [auto | ]. intros [H | (i & H & _)]; [exact H | destruct i; discriminate].
  - destruct (accepted A (if accepts A ps p b then (p, b) :: ps else ps) l) as [fl o] eqn:E2. injection E as <- <-. cbn [fst snd] in *.
    apply IH in E2. destruct E2 as (Hl & Hf & Ho & Hd & Hv). clear IH.
    assert (Hacc : accepts A ps p b = true <-> proper A b /\ ~ In p (map fst ps)).
    { unfold accepts. rewrite andb_true_iff, !negb_true_iff. rewrite V. split.
      - intros [H1 H2]. split; [exact H2 | ]. intros H. apply in_map_iff in H. destruct H as (e & <- & He).
        assert (existsb (fun e0 : nat * box => fst e0 =? fst e) ps = true) by (apply existsb_exists; exists e; split; [exact He | apply Nat.eqb_refl]). congruence.
      - intros [H1 H2]. split; [ | exact H1]. destruct (existsb (fun e : nat * box => fst e =? p) ps) eqn:E; [ | reflexivity].
        exfalso. apply H2. apply existsb_exists in E. destruct E as (e & He & Heq). apply Nat.eqb_eq in Heq. subst. apply in_map, He. }
    assert (Hcases : ~ proper A b \/ In p (map fst ps) <-> accepts A ps p b = false).
    { rewrite <- not_true_iff_false, Hacc. destruct (bad_bounds A b) eqn:Eb.
      - assert (N : ~ proper A b) by (rewrite <- V; congruence). tauto.
      - apply V in Eb. destruct (in_dec Nat.eq_dec p (map fst ps)); tauto. }
    split; [cbn; congruence | ]. split; [ | split; [ | split]].
    + intros i q c f [H1 H2]. destruct i as [ | i]; cbn in H1, H2.
      * injection H1 as <- <-. injection H2 as <-. rewrite negb_true_iff, <- Hcases. split.
        -- intros [H | H]; auto.
        -- intros [H | [H | (j & ? & J & _)]]; auto. lia.
      * rewrite (Hf i q c f (conj H1 H2)).
        split; (intros [H | [H | (j & b' & J & C1 & C2)]]; [left; exact H | | ]).
        -- destruct (accepts A ps p b) eqn:Ea; [ | right; left; exact H]. destruct H as [<- | H]; [ | right; left; exact H].
           right. right. exists 0, b. split; [lia | ]. split; [reflexivity | ]. cbn. rewrite ?Ea. reflexivity.
        -- right. right. exists (S j), b'. split; [lia | ]. split; assumption.
        -- right. left. destruct (accepts A ps p b); [right; exact H | exact H].
        -- destruct j as [ | j].
           ++ cbn in C1, C2. injection C1 as <- <-. injection C2 as C2. rewrite negb_false_iff in C2. rewrite C2. right. left. left. reflexivity.
           ++ right. right. exists j, b'. split; [lia | ]. split; assumption.
    + intros q c. rewrite Ho. split.
      * intros [H | (i & H1 & H2)].
        -- destruct (accepts A ps p b) eqn:Ea; [ | left; exact H]. destruct H as [H | H]; [ | left; exact H].
           injection H as <- <-. right. exists 0. split; [reflexivity | ]. cbn. rewrite ?Ea. reflexivity.
        -- right. exists (S i). split; assumption.
      * intros [H | (i & H1 & H2)].
        -- left. destruct (accepts A ps p b); [right; exact H | exact H].
        -- destruct i as [ | i]; cbn in H1, H2.
           ++ injection H1 as <- <-. injection H2 as H2. rewrite negb_false_iff in H2. rewrite H2. left. left. reflexivity.
           ++ right. exists i. split; assumption.
    + intros H. apply Hd. destruct (accepts A ps p b) eqn:Ea; [ | exact H]. cbn. constructor; [ | exact H]. apply (proj1 Hacc eq_refl).
    + intros H. apply Hv. destruct (accepts A ps p b) eqn:Ea; [ | exact H]. constructor; [ | exact H]. apply (proj1 Hacc eq_refl).
Qed.

Lemma found_in_spec hit (ps : list (nat * box)) p : In p (found_in A hit ps) <-> exists b, In (p, b) ps /\ hit b = true.
Proof.
  unfold found_in. rewrite in_map_iff. split.
  - intros ([q b] & <- & H). apply filter_In in H. exists b. exact H.
  - intros (b & H). exists (p, b). split; [reflexivity | ]. apply filter_In. exact H.
Qed.
Lemma found_in_nodup hit (ps : list (nat * box)) : NoDup (map fst ps) -> NoDup (found_in A hit ps).
Proof.
  unfold found_in. induction ps as [ | e ps IH]; cbn; intros H; [constructor | ]. inversion H as [ | ? ? H1 H2]; subst.
  destruct (hit (snd e)); [ | apply IH, H2]. cbn. constructor; [ | apply IH, H2].
  intros K. apply H1. apply in_map_iff in K. destruct K as (e' & E & K). apply filter_In in K. rewrite <- E. apply in_map, K.
Qed.

(** Insertions and queries. *)
Lemma insert_spec junk l : (Z.of_nat (length l) <= 2 ^ 30)%Z ->
  exists refused t ps, insert_all A l (new_tree A junk) = Some (refused, t) /\ inv A t ps /\
    length refused = length l /\
    (forall i p b f, call A l refused i p b f -> (f = true <-> ~ proper A b \/ exists j b', j < i /\ call A l refused j p b' false)) /\
    (forall p b, In (p, b) ps <-> exists i, call A l refused i p b false) /\
    NoDup (map fst ps) /\ Forall (fun e => proper A (snd e)) ps.
Proof.
  intros Hl. destruct (insert_all_ok A HA l (new_tree A junk) [] (new_inv A junk)) as (t & E & Hi).
  { cbn [new_tree t_count]. change (2 ^ 31)%Z with (2 * 2 ^ 30)%Z. lia. }
  destruct (accepted A [] l) as [refused ps] eqn:Ea. destruct (accepted_spec l [] refused ps Ea) as (H1 & H2 & H3 & H4 & H5).
  exists refused, t, ps. split; [exact E | ]. split; [exact Hi | ]. split; [exact H1 | ]. split; [ | split; [ | split]].
  - intros i p b f Hc. rewrite (H2 i p b f Hc). cbn. tauto.
  - intros p b. rewrite H3. cbn. tauto.
  - apply H4. constructor.
  - apply H5. constructor.
Qed.

Lemma search_spec junk l : (Z.of_nat (length l) <= 2 ^ 30)%Z ->
  exists refused t, insert_all A l (new_tree A junk) = Some (refused, t) /\ length refused = length l /\
    (forall i p b f, call A l refused i p b f -> (f = true <-> ~ proper A b \/ exists j b', j < i /\ call A l refused j p b' false)) /\
    (In false refused -> forall q, proper A q ->
      exists res, query A (overlap A q) t = Results res /\ NoDup res /\
        forall p, In p res <-> exists i b, call A l refused i p b false /\ exists x, point_in A x q /\ point_in A x b).
Proof.
  intros Hl. destruct (insert_spec junk l Hl) as (refused & t & ps & E & Hi & H1 & H2 & H3 & H4 & H5).
  exists refused, t. split; [exact E | ]. split; [exact H1 | ]. split; [exact H2 | ]. intros Hn q Hq.
  assert (Hps : ps <> []).
  { apply In_nth_error in Hn. destruct Hn as (i & Hn). assert (Hi' : i < length l) by (rewrite <- H1; apply nth_error_Some; congruence).
    destruct (nth_error l i) as [[p b] | ] eqn:El; [ | apply nth_error_None in El; lia].
    intros ->. assert (In (p, b) []) by (apply H3; exists i; split; assumption). contradiction. }
  destruct (query_ok A (overlap A q) t ps (overlap_mono A HA q) Hi Hps) as (res & Er & Hp).
  exists res. split; [exact Er | ]. split.
  - eapply Permutation_NoDup; [symmetry; exact Hp | apply found_in_nodup, H4].
  - intros p. assert (Hin : In p res <-> In p (found_in A (overlap A q) ps)) by (split; apply Permutation_in; [exact Hp | symmetry; exact Hp]).
    rewrite Hin, found_in_spec. rewrite Forall_forall in H5. split.
    + intros (b & Hb & Ho). pose proof (H5 _ Hb) as Vb. cbn in Vb. apply H3 in Hb. destruct Hb as (i & Hb). exists i, b. split; [exact Hb | ].
      apply overlap_point in Ho; assumption.
    + intros (i & b & Hb & x & X). assert (Hb' : In (p, b) ps) by (apply H3; exists i; exact Hb). exists b. split; [exact Hb' | ].
      apply overlap_point; [exact Hq | exact (H5 _ Hb') | exists x; exact X].
Qed.

Lemma covers_spec junk l (hit : box -> bool) (must : box -> Prop) : (Z.of_nat (length l) <= 2 ^ 30)%Z ->
  (forall a b, (forall x, point_in A x a -> point_in A x b) -> must a -> must b) -> (forall b, must b -> hit b = true) ->
  exists refused t, insert_all A l (new_tree A junk) = Some (refused, t) /\
    (In false refused -> exists res, query A hit t = Results res /\ NoDup res /\
      (forall i p b, call A l refused i p b false -> must b -> In p res) /\
      (forall p, In p res -> exists i b, call A l refused i p b false /\ hit b = true)).
Proof.
  intros Hl Hu Hm. destruct (insert_spec junk l Hl) as (refused & t & ps & E & Hi & H1 & H2 & H3 & H4 & H5).
  exists refused, t. split; [exact E | ]. intros Hn.
  assert (Hps : ps <> []).
  { apply In_nth_error in Hn. destruct Hn as (i & Hn). assert (Hi' : i < length l) by (rewrite <- H1; apply nth_error_Some; congruence).
    destruct (nth_error l i) as [[p b] | ] eqn:El; [ | apply nth_error_None in El; lia].
    intros ->. assert (In (p, b) []) by (apply H3; exists i; split; assumption). contradiction. }
  destruct (query_covers A hit must) with (t := t) (ps := ps) as (found & missed & Eq & Hp & F1 & F2); try assumption.
  { intros a b [(V1 & V2 & V3) (W1 & W2 & W3)]. apply Hu. intros x ((P1 & P2) & (P3 & P4) & (P5 & P6)).
    repeat split; eapply (le_trans A HA); eassumption. }
  exists (map fst found). split; [exact Eq | ].
  assert (Hd : NoDup (map fst found ++ map fst missed)).
  { rewrite <- map_app. eapply Permutation_NoDup; [apply Permutation_map; symmetry; exact Hp | exact H4]. }
  rewrite Forall_forall in F1, F2. split; [apply (NoDup_app_inv _ _ Hd) | ]. split.
  - intros i p b Hc Hb. assert (Hin : In (p, b) (found ++ missed)) by (eapply Permutation_in; [symmetry; exact Hp | apply H3; exists i; exact Hc]).
    apply in_app_or in Hin. destruct Hin as [Hin | Hin]; [apply (in_map fst) in Hin; exact Hin | ]. exfalso. exact (F2 _ Hin Hb).
  - intros p Hin. apply in_map_iff in Hin. destruct Hin as ([p' b] & <- & Hin).
    assert (Hb : In (p', b) ps) by (eapply Permutation_in; [exact Hp | apply in_or_app; left; exact Hin]).
    apply H3 in Hb. destruct Hb as (i & Hb). exists i, b. split; [exact Hb | ]. exact (F1 _ Hin).
Qed.

(** Meshes. *)
Lemma leq_min3 a b c x : leq A (min3 A a b c) x <-> leq A a x \/ leq A b x \/ leq A c x.
Proof.
  unfold min3. split.
  - unfold dmin. destruct (ltb A b a); destruct (ltb A c _); auto.
  - assert (M1 : leq A (dmin A (dmin A a b) c) (dmin A a b)) by (apply (dmin_l A HA)).
    assert (M2 : leq A (dmin A (dmin A a b) c) c) by (apply (dmin_r A HA)).
    assert (M3 : leq A (dmin A a b) a) by (apply (dmin_l A HA)). assert (M4 : leq A (dmin A a b) b) by (apply (dmin_r A HA)).
    intros [H | [H | H]]; [exact (le_trans A HA _ _ _ (le_trans A HA _ _ _ M1 M3) H) | exact (le_trans A HA _ _ _ (le_trans A HA _ _ _ M1 M4) H) | exact (le_trans A HA _ _ _ M2 H)].
Qed.
Lemma max3_leq a b c x : leq A x (max3 A a b c) <-> leq A x a \/ leq A x b \/ leq A x c.
Proof.
  unfold max3. split.
  - unfold dmax. destruct (ltb A a b); destruct (ltb A _ c); auto.
  - assert (M1 : leq A (dmax A a b) (dmax A (dmax A a b) c)) by (apply (dmax_l A HA)).
    assert (M2 : leq A c (dmax A (dmax A a b) c)) by (apply (dmax_r A HA)).
    assert (M3 : leq A a (dmax A a b)) by (apply (dmax_l A HA)). assert (M4 : leq A b (dmax A a b)) by (apply (dmax_r A HA)).
    intros [H | [H | H]]; [exact (le_trans A HA _ _ _ H (le_trans A HA _ _ _ M3 M1)) | exact (le_trans A HA _ _ _ H (le_trans A HA _ _ _ M4 M1)) | exact (le_trans A HA _ _ _ H M2)].
Qed.
Lemma tri_box_valid t : valid A (tri_box A t).
Proof.
  destruct t as [[a b] c]. split; [ | split]; cbn; (apply (leq_min3 _ _ _ _); left; apply (max3_leq _ _ _ _); left; apply (le_refl A HA)).
Qed.
Lemma number_nth {X} (l : list X) : forall k i p x, nth_error (number k l) i = Some (p, x) <-> p = k + i /\ nth_error l i = Some x.
Proof.
  induction l as [ | y l IH]; intros k i p x.
  - destruct i; cbn; split; intros H; try discriminate; destruct H; discriminate.
  - destruct i as [ | i]; cbn [number nth_error].
    + split; [intros H; injection H as <- <-; split; [lia | reflexivity] | intros [-> H]; injection H as <-; rewrite Nat.add_0_r; reflexivity].
    + rewrite (IH (S k) i p x). split; intros [-> H]; (split; [lia | exact H]).
Qed.
Lemma number_length {X} (l : list X) : forall k, length (number k l) = length l.
Proof. induction l as [ | y l IH]; intros k; cbn; congruence. Qed.

Lemma build_spec junk init tris : (Z.of_nat (length tris) <= 2 ^ 30)%Z ->
  exists t, build A junk init tris = Some (t, fold_left (extend A) (map (tri_box A) tris) init) /\
    exists ps, inv A t ps /\ NoDup (map fst ps) /\
      forall i b, In (i, b) ps <-> exists tr, nth_error tris i = Some tr /\ b = tri_box A tr.
Proof.
  intros Hl. set (l := number 0 (map (tri_box A) tris)).
  assert (Hlen : length l = length tris) by (unfold l; rewrite number_length, map_length; reflexivity).
  destruct (insert_spec junk l) as (refused & t & ps & E & Hi & H1 & H2 & H3 & H4 & H5); [rewrite Hlen; exact Hl | ].
  assert (Hn : forall i p b, nth_error l i = Some (p, b) <-> p = i /\ exists tr, nth_error tris i = Some tr /\ b = tri_box A tr).
  { intros i p b. unfold l. rewrite number_nth, nth_error_map. cbn. destruct (nth_error tris i) as [tr | ]; cbn.
    - split; [intros [H K]; injection K as <-; split; [exact H | exists tr; auto] | intros (H & tr' & K & ->); injection K as <-; auto].
    - split; [intros [_ K]; discriminate | intros (_ & tr' & K & _); discriminate]. }
  assert (Hf : forall i f, nth_error refused i = Some f -> f = false).
  { intros i f Hf. assert (Hi' : i < length l) by (rewrite <- H1; apply nth_error_Some; congruence).
    destruct (nth_error l i) as [[p b] | ] eqn:El; [ | apply nth_error_None in El; lia].
    destruct f; [ | reflexivity]. exfalso. destruct (proj1 (H2 i p b true (conj El Hf)) eq_refl) as [H | (j & b' & J & C1 & _)].
    - apply Hn in El. destruct El as (_ & tr & _ & ->). exact (H (tri_box_valid tr)).
    - apply Hn in El, C1. destruct El as [-> _]. destruct C1 as [K _]. lia. }
  assert (Hex : existsb (fun b : bool => b) refused = false).
  { destruct (existsb (fun b : bool => b) refused) eqn:Ex; [ | reflexivity]. apply existsb_exists in Ex. destruct Ex as (f & Hin & ->).
    apply In_nth_error in Hin. destruct Hin as (i & Hin). pose proof (Hf i true Hin). discriminate. }
  exists t. split.
  - unfold build. fold l. rewrite E. cbn [bind fst snd]. rewrite Hex. reflexivity.
  - exists ps. split; [exact Hi | ]. split; [exact H4 | ]. intros i b. rewrite H3. split.
    + intros (j & C1 & C2). apply Hn in C1. destruct C1 as (-> & H). exact H.
    + intros H. exists i. assert (El : nth_error l i = Some (i, b)) by (apply Hn; auto). split; [exact El | ].
      assert (Hi' : i < length refused) by (rewrite H1; apply nth_error_Some; congruence).
      destruct (nth_error refused i) as [f | ] eqn:Ef; [ | apply nth_error_None in Ef; lia]. rewrite (Hf i f Ef). reflexivity.
Qed.

Lemma overlap_tri q t : overlap A q (tri_box A t) = true <->
  forall c, In c (coords A) -> (exists v, vertex_of A v t /\ leq A (c v) (c (up A q))) /\ (exists v, vertex_of A v t /\ leq A (c (lo A q)) (c v)).
Proof.
  destruct t as [[u v] w]. unfold overlap. rewrite negb_true_iff, !orb_false_iff. cbn [tri_box lo up vx vy vz].
  fold (leq A (vx (lo A q)) (max3 A (vx u) (vx v) (vx w))). fold (leq A (vy (lo A q)) (max3 A (vy u) (vy v) (vy w))).
  fold (leq A (vz (lo A q)) (max3 A (vz u) (vz v) (vz w))).
  fold (leq A (min3 A (vx u) (vx v) (vx w)) (vx (up A q))). fold (leq A (min3 A (vy u) (vy v) (vy w)) (vy (up A q))).
  fold (leq A (min3 A (vz u) (vz v) (vz w)) (vz (up A q))).
  rewrite !leq_min3, !max3_leq. unfold vertex_of.
  assert (G1 : forall c : vec (num A) -> num A, (leq A (c u) (c (up A q)) \/ leq A (c v) (c (up A q)) \/ leq A (c w) (c (up A q))) <->
      exists x, (x = u \/ x = v \/ x = w) /\ leq A (c x) (c (up A q))).
  { intros c. split; [intros [H | [H | H]]; eexists; (split; [ | exact H]); auto | intros (x & [-> | [-> | ->]] & H); auto]. }
  assert (G2 : forall c : vec (num A) -> num A, (leq A (c (lo A q)) (c u) \/ leq A (c (lo A q)) (c v) \/ leq A (c (lo A q)) (c w)) <->
      exists x, (x = u \/ x = v \/ x = w) /\ leq A (c (lo A q)) (c x)).
  { intros c. split; [intros [H | [H | H]]; eexists; (split; [ | exact H]); auto | intros (x & [-> | [-> | ->]] & H); auto]. }
  rewrite (G1 (@vx _)), (G1 (@vy _)), (G1 (@vz _)), (G2 (@vx _)), (G2 (@vy _)), (G2 (@vz _)). split.
  - intros H c [<- | [<- | [<- | []]]]; tauto.
  - intros H. pose proof (H (@vx _) (or_introl eq_refl)). pose proof (H (@vy _) (or_intror (or_introl eq_refl))).
    pose proof (H (@vz _) (or_intror (or_intror (or_introl eq_refl)))). tauto.
Qed.

Lemma mesh_spec junk init tris : (Z.of_nat (length tris) <= 2 ^ 30)%Z ->
  exists t bounds, build A junk init tris = Some (t, bounds) /\
    (tris <> [] -> forall q, exists res, query A (overlap A q) t = Results res /\ NoDup res /\
      forall i, In i res <-> exists tr, nth_error tris i = Some tr /\
        forall c, In c (coords A) -> (exists v, vertex_of A v tr /\ leq A (c v) (c (up A q))) /\ (exists v, vertex_of A v tr /\ leq A (c (lo A q)) (c v))).
Proof.
  intros Hl. destruct (build_spec junk init tris Hl) as (t & E & ps & Hi & Hd & Hps).
  eexists t, _. split; [exact E | ]. intros Hn q.
  assert (Hp0 : ps <> []).
  { destruct tris as [ | tr tris]; [congruence | ]. intros ->. assert (In (0, tri_box A tr) []) by (apply Hps; exists tr; auto). contradiction. }
  destruct (query_ok A (overlap A q) t ps (overlap_mono A HA q) Hi Hp0) as (res & Er & Hp). exists res. split; [exact Er | ]. split.
  - eapply Permutation_NoDup; [symmetry; exact Hp | apply found_in_nodup, Hd].
  - intros i. assert (Hin : In i res <-> In i (found_in A (overlap A q) ps)) by (split; apply Permutation_in; [exact Hp | symmetry; exact Hp]).
    rewrite Hin, found_in_spec. split.
    + intros (b & Hb & Ho). apply Hps in Hb. destruct Hb as (tr & Ht & ->). exists tr. split; [exact Ht | ]. apply overlap_tri, Ho.
    + intros (tr & Ht & H). exists (tri_box A tr). split; [apply Hps; exists tr; auto | apply overlap_tri, H].
Qed.

(** Bounds of the mesh. *)
Lemma leq_dmin a b x : leq A (dmin A a b) x <-> leq A a x \/ leq A b x.
Proof.
  split; [unfold dmin; destruct (ltb A b a); auto | ].
  intros [H | H]; [exact (le_trans A HA _ _ _ (dmin_l A HA a b) H) | exact (le_trans A HA _ _ _ (dmin_r A HA a b) H)].
Qed.
Lemma dmax_leq a b x : leq A x (dmax A a b) <-> leq A x a \/ leq A x b.
Proof.
  split; [unfold dmax; destruct (ltb A a b); auto | ].
  intros [H | H]; [exact (le_trans A HA _ _ _ H (dmax_l A HA a b)) | exact (le_trans A HA _ _ _ H (dmax_r A HA a b))].
Qed.
Lemma bounds_low (c : vec (num A) -> num A) tris x : In c (coords A) -> forall init,
  leq A (c (lo A (fold_left (extend A) (map (tri_box A) tris) init))) x <->
  leq A (c (lo A init)) x \/ exists t v, In t tris /\ vertex_of A v t /\ leq A (c v) x.
Proof.
  intros Hc. induction tris as [ | [[u v] w] tris IH]; intros init; cbn [map fold_left].
  - split; [auto | ]. intros [H | (t & ? & [] & _)]. exact H.
  - rewrite IH. assert (E : leq A (c (lo A (extend A init (tri_box A (u, v, w))))) x <-> (leq A (c u) x \/ leq A (c v) x \/ leq A (c w) x) \/ leq A (c (lo A init)) x).
    { destruct Hc as [<- | [<- | [<- | []]]]; cbn [extend merge lo vx vy vz tri_box]; rewrite leq_dmin, leq_min3; reflexivity. }
    rewrite E. split.
    + intros [[[H | [H | H]] | H] | (t & y & H1 & H2)]; [ | | | left; exact H | right; exists t, y; split; [right; exact H1 | exact H2]];
        right; exists (u, v, w); eexists; (split; [left; reflexivity | split; [ | exact H]]); cbn; auto.
    + intros [H | (t & y & [<- | H1] & H2 & H3)]; [left; right; exact H | | right; exists t, y; auto].
      left. left. destruct H2 as [-> | [-> | ->]]; auto.
Qed.
Lemma bounds_up (c : vec (num A) -> num A) tris x : In c (coords A) -> forall init,
  leq A x (c (up A (fold_left (extend A) (map (tri_box A) tris) init))) <->
  leq A x (c (up A init)) \/ exists t v, In t tris /\ vertex_of A v t /\ leq A x (c v).
Proof.
  intros Hc. induction tris as [ | [[u v] w] tris IH]; intros init; cbn [map fold_left].
  - split; [auto | ]. intros [H | (t & ? & [] & _)]. exact H.
  - rewrite IH. assert (E : leq A x (c (up A (extend A init (tri_box A (u, v, w))))) <-> (leq A x (c u) \/ leq A x (c v) \/ leq A x (c w)) \/ leq A x (c (up A init))).
    { destruct Hc as [<- | [<- | [<- | []]]]; cbn [extend merge up vx vy vz tri_box]; rewrite dmax_leq, max3_leq; reflexivity. }
    rewrite E. split.
    + intros [[[H | [H | H]] | H] | (t & y & H1 & H2)]; [ | | | left; exact H | right; exists t, y; split; [right; exact H1 | exact H2]];
        right; exists (u, v, w); eexists; (split; [left; reflexivity | split; [ | exact H]]); cbn; auto.
    + intros [H | (t & y & [<- | H1] & H2 & H3)]; [left; right; exact H | | right; exists t, y; auto].
      left. left. destruct H2 as [-> | [-> | ->]]; auto.
Qed.
Lemma within_spec junk init tris p : (Z.of_nat (length tris) <= 2 ^ 30)%Z -> tris <> [] ->
  (forall t v c, In t tris -> vertex_of A v t -> In c (coords A) -> leq A (c v) (c (lo A init)) /\ leq A (c (up A init)) (c v)) ->
  exists t bounds, build A junk init tris = Some (t, bounds) /\
    (within_bounds A bounds p = true <->
     forall c, In c (coords A) ->
       (exists t v, In t tris /\ vertex_of A v t /\ leq A (c v) (c p)) /\ (exists t v, In t tris /\ vertex_of A v t /\ leq A (c p) (c v))).
Proof.
  intros Hl Hn Hr. destruct (build_spec junk init tris Hl) as (t & E & _). eexists t, _. split; [exact E | ].
  set (bounds := fold_left (extend A) (map (tri_box A) tris) init).
  assert (L : forall c, In c (coords A) -> leq A (c (lo A bounds)) (c p) <-> exists t v, In t tris /\ vertex_of A v t /\ leq A (c v) (c p)).
  { intros c Hc. unfold bounds. rewrite bounds_low by exact Hc. split; [ | auto]. intros [H | H]; [ | exact H].
    destruct tris as [ | [[u v] w] tris']; [congruence | ]. exists (u, v, w), u. split; [left; reflexivity | ]. split; [cbn; auto | ].
    eapply (le_trans A HA); [ | exact H]. apply (Hr (u, v, w) u c); [left; reflexivity | cbn; auto | exact Hc]. }
  assert (U : forall c, In c (coords A) -> leq A (c p) (c (up A bounds)) <-> exists t v, In t tris /\ vertex_of A v t /\ leq A (c p) (c v)).
  { intros c Hc. unfold bounds. rewrite bounds_up by exact Hc. split; [ | auto]. intros [H | H]; [ | exact H].
    destruct tris as [ | [[u v] w] tris']; [congruence | ]. exists (u, v, w), u. split; [left; reflexivity | ]. split; [cbn; auto | ].
    eapply (le_trans A HA); [exact H | ]. apply (Hr (u, v, w) u c); [left; reflexivity | cbn; auto | exact Hc]. }
  unfold within_bounds. rewrite negb_true_iff, !orb_false_iff.
  fold (leq A (vx (lo A bounds)) (vx p)). fold (leq A (vy (lo A bounds)) (vy p)). fold (leq A (vz (lo A bounds)) (vz p)).
  fold (leq A (vx p) (vx (up A bounds))). fold (leq A (vy p) (vy (up A bounds))). fold (leq A (vz p) (vz (up A bounds))).
  assert (C1 : In (@vx (num A)) (coords A)) by (left; reflexivity). assert (C2 : In (@vy (num A)) (coords A)) by (right; left; reflexivity).
  assert (C3 : In (@vz (num A)) (coords A)) by (right; right; left; reflexivity).
  split.
  - intros H c [<- | [<- | [<- | []]]]; rewrite <- L, <- U by assumption; tauto.
  - intros H. pose proof (H _ C1) as H1. pose proof (H _ C2) as H2. pose proof (H _ C3) as H3. rewrite <- L, <- U in H1, H2, H3 by assumption. tauto.
Qed.
End Lemmas.

(** *** C49 *)
(** Any sequence of insertions (up to 2^30) is carried out without undefined behaviour.  An insertion is refused exactly if the
    bounds are exchanged or the id is stored already.  A query with a box returns exactly the ids of the stored boxes that
    share a point with it, each once, whatever rotations happened. *)
Theorem C49_search : forall A, ordered A -> forall junk l, (Z.of_nat (length l) <= 2 ^ 30)%Z ->
  exists refused t, insert_all A l (new_tree A junk) = Some (refused, t) /\ length refused = length l /\
    (forall i p b f, call A l refused i p b f -> (f = true <-> ~ proper A b \/ exists j b', j < i /\ call A l refused j p b' false)) /\
    (In false refused -> forall q, proper A q ->
      exists res, query A (overlap A q) t = Results res /\ NoDup res /\
        forall p, In p res <-> exists i b, call A l refused i p b false /\ exists x, point_in A x q /\ point_in A x b).
Proof. exact search_spec. Qed.
Print Assumptions C49_search.

(** The same for any other test of the boxes: no stored box is missed that satisfies a property which larger boxes inherit and
    which the test recognises; every result passed the test. *)
Theorem C49_any_test : forall A, ordered A -> forall junk l (hit : aabb A -> bool) (must : aabb A -> Prop), (Z.of_nat (length l) <= 2 ^ 30)%Z ->
  (forall a b, (forall x, point_in A x a -> point_in A x b) -> must a -> must b) -> (forall b, must b -> hit b = true) ->
  exists refused t, insert_all A l (new_tree A junk) = Some (refused, t) /\
    (In false refused -> exists res, query A hit t = Results res /\ NoDup res /\
      (forall i p b, call A l refused i p b false -> must b -> In p res) /\
      (forall p, In p res -> exists i b, call A l refused i p b false /\ hit b = true)).
Proof. exact covers_spec. Qed.
Print Assumptions C49_any_test.

(** The tree of a mesh: it is always built, and a box query returns exactly the triangles whose coordinate ranges all meet the
    box. *)
Theorem C49_mesh : forall A, ordered A -> forall junk init tris, (Z.of_nat (length tris) <= 2 ^ 30)%Z ->
  exists t bounds, build A junk init tris = Some (t, bounds) /\
    (tris <> [] -> forall q, exists res, query A (overlap A q) t = Results res /\ NoDup res /\
      forall i, In i res <-> exists tr, nth_error tris i = Some tr /\
        forall c, In c (coords A) -> (exists v, vertex_of A v tr /\ leq A (c v) (c (up A q))) /\ (exists v, vertex_of A v tr /\ leq A (c (lo A q)) (c v))).
Proof. exact mesh_spec. Qed.
Print Assumptions C49_mesh.

(** The bounding box of a mesh: a point is within it exactly if it is within the coordinate range of the vertices in each
    direction. *)
Theorem C49_bounds : forall A, ordered A -> forall junk init tris p, (Z.of_nat (length tris) <= 2 ^ 30)%Z -> tris <> [] ->
  (forall t v c, In t tris -> vertex_of A v t -> In c (coords A) -> leq A (c v) (c (lo A init)) /\ leq A (c (up A init)) (c v)) ->
  exists t bounds, build A junk init tris = Some (t, bounds) /\
    (within_bounds A bounds p = true <->
     forall c, In c (coords A) ->
       (exists t v, In t tris /\ vertex_of A v t /\ leq A (c v) (c p)) /\ (exists t v, In t tris /\ vertex_of A v t /\ leq A (c p) (c v))).
Proof. exact within_spec. Qed.
Print Assumptions C49_bounds.

(** A query of an empty tree reads a node that does not exist. *)
Theorem C49_empty_refuted : forall A junk hit,
  insert_all A [] (new_tree A junk) = Some ([], new_tree A junk) /\ query A hit (new_tree A junk) = QueryUndefined.
Proof. intros A junk hit. split; [reflexivity | apply query_empty, new_inv]. Qed.
Print Assumptions C49_empty_refuted.

(** *** Examples *)
Definition ZA : arith := Arith Z Z.ltb Z.add Z.sub Z.mul 0%Z 1%Z 2%Z.
Lemma ZA_ordered : ordered ZA.
Proof.
  constructor; cbn; intros; rewrite ?Z.ltb_lt, ?Z.ltb_ge in *; lia.
Qed.
Definition zbox (x y z w : Z) : aabb ZA := AABB ZA (Vec x y z) (Vec (x + w) (y + w) (z + w))%Z.
(** Twelve boxes in a row with growing coordinates (which needs rotations), one with an id that is stored already and one with
    exchanged bounds. *)
Definition row : list (nat * aabb ZA) :=
  map (fun i => (i, zbox (3 * Z.of_nat i) (Z.of_nat i) 0 4))%Z (seq 0 12) ++ [(5, zbox 0 0 0 1); (30, zbox 0 0 0 (-1))].
Definition zjunk : nat -> node ZA := fun _ => Node ZA (zbox 7 7 7 7) (Some 9) None (Some 3) None 5 77.
(** The refused insertions, the results of a query, the size of the pool and the height of the root. *)
Definition observed (l : list (nat * aabb ZA)) (q : aabb ZA) : option (list bool * queried * nat * option Z) :=
  match insert_all ZA l (new_tree ZA zjunk) with
  | None => None
  | Some (refused, t) => Some (refused, query ZA (overlap ZA q) t, t_cap ZA t, option_map (n_height ZA) (rdo ZA t (t_root ZA t)))
  end.
Example C49_search_example : observed row (zbox 20 0 0 10) = Some (repeat false 12 ++ [true; true], Results [10; 9; 8; 7; 6], 32, Some 4%Z).
Proof. vm_compute. reflexivity. Qed.
Example C49_search_hypotheses : ordered ZA /\ (Z.of_nat (length row) <= 2 ^ 30)%Z /\ proper ZA (zbox 20 0 0 10).
Proof. split; [exact ZA_ordered | ]. split; [cbn; lia | ]. repeat split. Qed.
Definition zline (i : nat) : vec Z * vec Z * vec Z := let z := Z.of_nat i in (Vec z 0 0, Vec (z + 1) 1 0, Vec z 2 z)%Z.
Example C49_mesh_example :
  match build ZA zjunk (AABB ZA (Vec 100 100 100) (Vec (-100) (-100) (-100)))%Z (map zline (seq 0 6)) with
  | None => False
  | Some (t, b) => b = AABB ZA (Vec 0 0 0)%Z (Vec 6 2 5)%Z /\ query ZA (overlap ZA (zbox 3 0 0 1)) t = Results [4; 3; 2] /\
      within_bounds ZA b (Vec 6 0 5)%Z = true
  end.
Proof. vm_compute. auto. Qed.
