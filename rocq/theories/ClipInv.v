(** Properties of clipped triangles in the coordinates of the triangle. *)
From Coq Require Import Reals List Arith Bool Sorted Lia Lra.
From Verif Require Import Geo MappingModel TrimmedQuadModel MeshModel MeshGeoModel MeshGeoProofs ClipModel ClipTheory ClipPlane ClipArea ClipProofs.
Import ListNotations.
Local Open Scope R_scope.

Section Inv.
Variable t : tri pt.
Let tp := Rlt_le _ _ tol_pos.
Lemma clipw_convex k pos ws : convex_poly (map w_q ws) -> convex_poly (map w_q (clipw t k pos ws)).
Proof. intros C. rewrite clipw_q. apply clip_convex; [apply hk_affine | exact tp | exact C]. Qed.
Lemma clip_all_convex l : forall ws, convex_poly (map w_q ws) -> convex_poly (map w_q (clip_all t l ws)).
Proof. induction l as [|[k pos] l IH]; intros ws C; [exact C|]. apply (IH (clipw t k pos ws)), clipw_convex, C. Qed.
Lemma all_inside l : forall ws v, convex_poly (map w_q ws) -> In v (map w_q (clip_all t l ws)) ->
  hull (map w_q ws) v /\ forall k pos, In (k, pos) l -> hk t k pos v <= plane_tol.
Proof.
  induction l as [|[k pos] l IH]; intros ws v C I; [split; [apply hull_in, I | intros k pos []]|].
  destruct (IH (clipw t k pos ws) v (clipw_convex k pos ws C) I) as [H B]. rewrite clipw_q in H.
  split.
  - revert H. apply hull_mono. intros u Iu. apply (clip_inside _ _ (hk_affine t k pos) tp _ u C Iu).
  - intros k' pos' [E|J]; [|exact (B k' pos' J)]. injection E as <- <-.
    assert (G : 0 <= - hk t k pos v + plane_tol); [|lra].
    apply (H (fun p => 0 <= - hk t k pos p + plane_tol)).
    + apply (half_convex' (fun p => - hk t k pos p + plane_tol)). apply affine_shift.
      destruct (hk_affine t k pos) as (c & a & b & E). exists (- c), (- a), (- b). intros p. rewrite E. ring.
    + intros u Iu. destruct (clip_inside _ _ (hk_affine t k pos) tp _ u C Iu) as [_ L]. lra.
Qed.
Lemma all_complete l : forall ws x, convex_poly (map w_q ws) -> hull (map w_q ws) x ->
  (forall k pos, In (k, pos) l -> hk t k pos x < - plane_tol) -> hull (map w_q (clip_all t l ws)) x.
Proof.
  induction l as [|[k pos] l IH]; intros ws x C H B; [exact H|]. apply (IH (clipw t k pos ws)).
  - apply clipw_convex, C.
  - rewrite clipw_q. apply clip_complete; [apply hk_affine | exact tp | exact C | exact H | apply B; left; reflexivity].
  - intros k' pos' J. apply B. right; exact J.
Qed.
Lemma all_oriented l : forall ws, convex_poly (map w_q ws) -> oriented (map w_q ws) ->
  oriented (map w_q (clip_all t l ws)) /\ area_of (map w_q (clip_all t l ws)) <= area_of (map w_q ws).
Proof.
  induction l as [|[k pos] l IH]; intros ws C O; [split; [exact O | apply Rle_refl]|].
  destruct (IH (clipw t k pos ws) (clipw_convex k pos ws C)) as [A B].
  - rewrite clipw_q. apply clip_oriented; [apply hk_affine | exact tp | exact C | exact O].
  - split; [exact A|]. change (clip_all t ((k, pos) :: l) ws) with (clip_all t l (clipw t k pos ws)). rewrite clipw_q in B.
    destruct (clip_area _ _ (hk_affine t k pos) tp _ C O) as [_ K]. exact (Rle_trans _ _ _ B K).
Qed.

(** *** Marks *)
(** The vertices of the clipped polygon. *)
Lemma clipw_vertex k pos ws v : convex_poly (map w_q ws) -> In v (clipw t k pos ws) ->
  In v ws \/ exists a b, In a ws /\ In b ws /\ - plane_tol <= hk t k pos (w_q v) <= plane_tol /\ on_edge (w_q a) (w_q b) (w_q v) /\
    forall j, w_on v j = true -> j = k \/ (w_on a j = true /\ w_on b j = true) \/ (w_on a j = true /\ w_q v = w_q a).
Proof.
  intros C I. destruct (clipw_clipped t k pos ws C) as [A | N | b0 bs n0 ns r R X Y E].
  - left. exact I.
  - destruct I.
  - apply (rot_in _ _ _ E) in I. assert (Rs := rot_sym _ _ R).
    assert (B1 : In (last bs b0) (b0 :: bs)) by (rewrite <- (last_cons b0 bs b0); apply last_in; discriminate).
    assert (N1 : In (last ns n0) (n0 :: ns)) by (rewrite <- (last_cons n0 ns n0); apply last_in; discriminate).
    assert (Inl : forall w, In w (b0 :: bs) \/ In w (n0 :: ns) -> In w ws) by (intros w W; apply (rot_in _ _ _ Rs), in_or_app, W).
    assert (K : forall b n, In b ws -> In n ws -> behind (sdw t k pos) b = true -> behind (sdw t k pos) n = false ->
      (forall v, v = join (sdw t k pos) (interw t k pos) (markw k) b n \/ v = join (sdw t k pos) (interw t k pos) (markw k) n b ->
      exists a b, In a ws /\ In b ws /\ - plane_tol <= hk t k pos (w_q v) <= plane_tol /\ on_edge (w_q a) (w_q b) (w_q v) /\
        forall j, w_on v j = true -> j = k \/ (w_on a j = true /\ w_on b j = true) \/ (w_on a j = true /\ w_q v = w_q a))).
    { intros b n Ib In' Bb Bn v' Hv'. unfold behind in Bb, Bn. destruct (sdw t k pos b) eqn:Sb; try discriminate. destruct (sdw t k pos n) eqn:Sn; try discriminate.
      - unfold sdw in Sb, Sn. destruct (cross_param _ _ (hk_affine t k pos) tp (w_q b) (w_q n) (or_introl (conj Sb Sn))) as (T & Z & _).
        destruct (cross_param _ _ (hk_affine t k pos) tp (w_q n) (w_q b) (or_intror (conj Sn Sb))) as (T' & Z' & _).
        unfold join, sdw in Hv'. rewrite Sb, Sn in Hv'.
        destruct Hv' as [-> | ->]; [exists b, n | exists n, b]; (split; [assumption|]; split; [assumption|]; cbn [interw w_q w_on]; rewrite ?Z, ?Z'; split; [lra|]; split;
          [eexists; split; [|reflexivity]; lra|]; intros j Hj; apply orb_prop in Hj as [Hj|Hj]; [left; apply Nat.eqb_eq, Hj|]; right; left;
          apply andb_prop in Hj as [Hj Hb]; apply andb_prop in Hj as [_ Ha]; split; assumption).
      - assert (Ho : - plane_tol <= hk t k pos (w_q n) <= plane_tol).
        { unfold sdw, sd2 in Sn. destruct (Rlt_dec plane_tol _); [discriminate|]. destruct (Rlt_dec _ (- plane_tol)); [discriminate|]. lra. }
        unfold join in Hv'. rewrite Sb, Sn in Hv'. assert (v' = markw k n) as -> by (destruct Hv'; assumption).
        exists n, n. split; [assumption|]. split; [assumption|]. cbn [markw w_q w_on]. split; [exact Ho|]. split; [exists 0; split; [lra|]; rewrite mix_0; reflexivity|].
        intros j Hj. apply orb_prop in Hj as [Hj|Hj]; [left; apply Nat.eqb_eq, Hj | right; left; split; exact Hj]. }
    destruct I as [<-|I].
    + right. apply (K b0 (last ns n0)); [apply Inl; left; left; reflexivity | apply Inl; right; exact N1 | apply X; left; reflexivity | apply Y, N1 | right; reflexivity].
    + apply in_app_or in I as [I|[<-|[]]]; [left; apply Inl; left; exact I|].
      right. apply (K (last bs b0) n0); [apply Inl; left; exact B1 | apply Inl; right; left; reflexivity | apply X, B1 | apply Y; left; reflexivity | left; reflexivity].
Qed.
(** Marked vertices are on their plane. *)
Lemma all_marks (pp : nat -> R) l : forall ws, convex_poly (map w_q ws) -> (forall k pos, In (k, pos) l -> pos = pp k) ->
  (forall w j, In w ws -> w_on w j = true -> - plane_tol <= hk t j (pp j) (w_q w) <= plane_tol) ->
  forall w j, In w (clip_all t l ws) -> w_on w j = true -> - plane_tol <= hk t j (pp j) (w_q w) <= plane_tol.
Proof.
  induction l as [|[k pos] l IH]; intros ws C P H; [exact H|]. apply (IH (clipw t k pos ws)).
  - apply clipw_convex, C.
  - intros k' pos' J. apply P. right; exact J.
  - intros w j I O. destruct (clipw_vertex k pos ws w C I) as [J | (a & b & Ia & Ib & Hk & (s & S & Es) & Hj)]; [exact (H w j J O)|].
    destruct (Hj j O) as [-> | [[Oa Ob] | [Oa Eq]]].
    + rewrite <- (P k pos (or_introl eq_refl)). exact Hk.
    + rewrite Es, (affine_mix _ s _ _ (hk_affine t j (pp j))). assert (A := H a j Ia Oa). assert (B := H b j Ib Ob). split; nra.
    + rewrite Eq. exact (H a j Ia Oa).
Qed.
(** Only planes that have been used are marked. *)
Lemma all_bound l : forall ws, convex_poly (map w_q ws) -> forall w j, In w (clip_all t l ws) -> w_on w j = true ->
  (exists w', In w' ws /\ w_on w' j = true) \/ exists pos, In (j, pos) l.
Proof.
  induction l as [|[k pos] l IH]; intros ws C w j I O; [left; exists w; split; assumption|].
  destruct (IH (clipw t k pos ws) (clipw_convex k pos ws C) w j I O) as [(w' & I' & O') | (p & J)]; [|right; exists p; right; exact J].
  destruct (clipw_vertex k pos ws w' C I') as [J | (a & b & Ia & Ib & Hk & _ & Hj)]; [left; exists w'; split; assumption|].
  destruct (Hj j O') as [-> | [[Oa _] | [Oa _]]]; [right; exists pos; left; reflexivity | left; exists a; split; assumption | left; exists a; split; assumption].
Qed.

(** At most two positions of marked vertices that follow each other, and an unmarked vertex. *)
Definition two_marks (j : nat) (ws : list wv) : Prop := exists p q,
  (forall w, In w ws -> w_on w j = true -> w_q w = p \/ w_q w = q) /\
  (forall a b, In (a, b) (cedges ws) -> w_on a j = true -> w_on b j = true ->
    (w_q a = p /\ w_q b = p) \/ (w_q a = p /\ w_q b = q) \/ (w_q a = q /\ w_q b = q)).
Definition some_unmarked (j : nat) (ws : list wv) : Prop := ws = [] \/ exists w, In w ws /\ w_on w j = false.
Lemma arcs_cedges {A} (y e b0 : A) bs u v : In (u, v) (cedges (y :: (b0 :: bs) ++ [e])) ->
  (u = e /\ v = y) \/ (u = y /\ v = b0) \/ In (u, v) (pairs b0 bs) \/ (u = last bs b0 /\ v = e).
Proof.
  change (y :: (b0 :: bs) ++ [e]) with ((y :: b0 :: bs) ++ [e]). cbn [cedges app]. change (y :: b0 :: bs ++ [e]) with ((y :: b0 :: bs) ++ [e]).
  rewrite pairs_app, !last_app, !last_cons. cbn [pairs last]. intros [E|[E|I]].
  - injection E as <- <-. left. split; reflexivity.
  - injection E as <- <-. right; left. split; reflexivity.
  - apply in_app_or in I as [I|[E|[]]]; [right; right; left; exact I|]. injection E as <- <-. right; right; right. split; reflexivity.
Qed.
Lemma sd_pos k pos a b : w_q a = w_q b -> behind (sdw t k pos) a = behind (sdw t k pos) b.
Proof. intros E. unfold behind, sdw. rewrite E. reflexivity. Qed.
Lemma marks_step k pos j ws : (j < k)%nat -> convex_poly (map w_q ws) -> two_marks j ws -> some_unmarked j ws ->
  two_marks j (clipw t k pos ws) /\ some_unmarked j (clipw t k pos ws).
Proof.
  intros Jk C (p & q & Hp & He) U. destruct (clipw_clipped t k pos ws C) as [A | N | b0 bs n0 ns r R X Y E].
  - split; [exists p, q; split; assumption | exact U].
  - split; [exists p, q; split; [intros w [] | intros a b []] | left; reflexivity].
  - assert (Rs := rot_sym _ _ R). assert (Es := rot_sym _ _ E).
    assert (B1 : In (last bs b0) (b0 :: bs)) by (rewrite <- (last_cons b0 bs b0); apply last_in; discriminate).
    assert (N1 : In (last ns n0) (n0 :: ns)) by (rewrite <- (last_cons n0 ns n0); apply last_in; discriminate).
    assert (Inl : forall w, In w (b0 :: bs) \/ In w (n0 :: ns) -> In w ws) by (intros w W; apply (rot_in _ _ _ Rs), in_or_app, W).
    set (b1 := last bs b0) in *. set (n1 := last ns n0) in *.
    assert (Ie : In (n1, b0) (cedges ws) /\ In (b1, n0) (cedges ws) /\ forall e, In e (pairs b0 bs) -> In e (cedges ws)).
    { assert (G : forall e, In e (cedges ((b0 :: bs) ++ n0 :: ns)) -> In e (cedges ws)) by (intros e; apply cedges_rot, Rs).
      cbn [cedges app] in G. change (b0 :: bs ++ n0 :: ns) with ((b0 :: bs) ++ n0 :: ns) in G. rewrite pairs_app, last_app, !last_cons in G. cbn [pairs] in G.
      split; [apply G; left; reflexivity|]. split; [apply G; apply in_or_app; right; left; reflexivity|].
      intros e I. apply G. apply in_or_app. left. right. exact I. }
    destruct Ie as (E1 & E2 & E3).
    assert (Pb0 := X b0 (or_introl eq_refl)). assert (Pb1 := X b1 B1). assert (Pn0 := Y n0 (or_introl eq_refl)). assert (Pn1 := Y n1 N1).
    set (y := join (sdw t k pos) (interw t k pos) (markw k) n1 b0) in *. set (e := join (sdw t k pos) (interw t k pos) (markw k) b1 n0) in *.
    (* sides of positions *)
    assert (Diff : forall a b, behind (sdw t k pos) a = true -> behind (sdw t k pos) b = false -> w_q a <> w_q b).
    { intros a b Ha Hb Eq. rewrite (sd_pos k pos a b Eq) in Ha. congruence. }
    assert (Jb : (j =? k)%nat = false) by (apply Nat.eqb_neq; lia). assert (Jl : (j <? k)%nat = true) by (apply Nat.ltb_lt; lia).
    (* what the marks of y and e tell *)
    assert (My : w_on y j = true -> w_on n1 j = true /\ ((sdw t k pos n1 = On /\ w_q y = w_q n1) \/
      (sdw t k pos n1 = Front /\ w_on b0 j = true /\ w_q n1 = p /\ w_q b0 = q /\ w_q y = inter2 (hk t k pos) p q))).
    { unfold y, join. unfold behind in Pb0, Pn1. destruct (sdw t k pos b0) eqn:Sb; try discriminate. destruct (sdw t k pos n1) eqn:Sn; try discriminate; cbn [interw markw w_on w_q];
        rewrite Jb, ?Jl; cbn [orb andb]; intros O.
      - apply andb_prop in O as [On1 Ob0]. split; [exact On1|]. right. split; [reflexivity|]. split; [exact Ob0|].
        assert (D : w_q b0 <> w_q n1) by (apply Diff; unfold behind; [rewrite Sb | rewrite Sn]; reflexivity).
        destruct (He n1 b0 E1 On1 Ob0) as [[K1 K2] | [[K1 K2] | [K1 K2]]]; [congruence | | congruence]. rewrite K1, K2. split; [reflexivity|]. split; reflexivity.
      - split; [exact O|]. left. split; reflexivity. }
    assert (Me : w_on e j = true -> w_on n0 j = true /\ ((sdw t k pos n0 = On /\ w_q e = w_q n0) \/
      (sdw t k pos n0 = Front /\ w_on b1 j = true /\ w_q b1 = p /\ w_q n0 = q /\ w_q e = inter2 (hk t k pos) p q))).
    { unfold e, join. unfold behind in Pb1, Pn0. destruct (sdw t k pos b1) eqn:Sb; try discriminate. destruct (sdw t k pos n0) eqn:Sn; try discriminate; cbn [interw markw w_on w_q];
        rewrite Jb, ?Jl; cbn [orb andb]; intros O.
      - apply andb_prop in O as [Ob1 On0]. split; [exact On0|]. right. split; [reflexivity|]. split; [exact Ob1|].
        assert (D : w_q b1 <> w_q n0) by (apply Diff; unfold behind; [rewrite Sb | rewrite Sn]; reflexivity).
        destruct (He b1 n0 E2 Ob1 On0) as [[K1 K2] | [[K1 K2] | [K1 K2]]]; [congruence | | congruence]. rewrite K1, K2. split; [reflexivity|]. split; reflexivity.
      - split; [exact O|]. left. split; reflexivity. }
    split.
    + (* two marks *)
      assert (Side : forall a b, w_q a = w_q b -> sdw t k pos a = sdw t k pos b) by (intros a b Eq; unfold sdw; rewrite Eq; reflexivity).
      set (sp := fun x : p2 => sd2 (hk t k pos) plane_tol x).
      assert (Sq : forall w, sdw t k pos w = sp (w_q w)) by reflexivity.
      assert (Bsp : forall w, In w (b0 :: bs) -> sp (w_q w) = Behind).
      { intros w I. specialize (X w I). unfold behind in X. rewrite Sq in X. destruct (sp (w_q w)); try discriminate. reflexivity. }
      assert (Nsp : forall w, In w (n0 :: ns) -> sp (w_q w) <> Behind).
      { intros w I F. specialize (Y w I). unfold behind in Y. rewrite Sq, F in Y. discriminate. }
      assert (Ib : forall w, In w (b0 :: bs) -> In w ws) by (intros w I; apply Inl; left; exact I).
      assert (In' : forall w, In w (n0 :: ns) -> In w ws) by (intros w I; apply Inl; right; exact I).
      assert (Sn1 := Nsp n1 N1). assert (Sn0 := Nsp n0 (or_introl eq_refl)).
      set (p' := match sp p with Behind => p | Front => inter2 (hk t k pos) p q | On => p end).
      set (q' := match sp q with Behind => q | Front => inter2 (hk t k pos) p q | On => q end).
      assert (Red : forall v w, In (v, w) (cedges (y :: (b0 :: bs) ++ [e])) -> w_on v j = true -> w_on w j = true ->
        (v = e /\ w = y) \/ (v = y /\ w = b0) \/ In (v, w) (pairs b0 bs) \/ (v = b1 /\ w = e)) by (intros v w I _ _; exact (arcs_cedges y e b0 bs v w I)).
      destruct (sp p) eqn:Spp; destruct (sp q) eqn:Spq.
      (* neither p nor q is behind: only y and e can be marked *)
      1,3,7,9: (exists (w_q e), (w_q y); split;
        [ intros w I O; apply (rot_in _ _ _ E) in I; destruct I as [<-|I]; [right; reflexivity|]; apply in_app_or in I as [I|[<-|[]]]; [|left; reflexivity];
          exfalso; destruct (Hp w (Ib w I) O) as [K|K]; assert (Z := Bsp w I); rewrite K in Z; congruence
        | intros v w I Ov Ow; apply (cedges_rot _ _ _ E) in I; destruct (arcs_cedges y e b0 bs v w I) as [[-> ->] | [[-> ->] | [J | [-> ->]]]];
          [ right; left; split; reflexivity
          | exfalso; destruct (Hp b0 (Ib _ (or_introl eq_refl)) Ow) as [K|K]; assert (Z := Bsp b0 (or_introl eq_refl)); rewrite K in Z; congruence
          | exfalso; apply pairs_in in J as [Jv _]; destruct (Hp v (Ib _ Jv) Ov) as [K|K]; assert (Z := Bsp v Jv); rewrite K in Z; congruence
          | exfalso; destruct (Hp b1 (Ib _ B1) Ov) as [K|K]; assert (Z := Bsp b1 B1); rewrite K in Z; congruence ] ]).
      (* q is behind, p is not *)
      1,5: (exists p', q; 
        assert (Fy : w_on y j = true -> w_q y = p') by (unfold p'; intros O; destruct (My O) as [On1 [[S1 Ey] | (S1 & Ob & K1 & K2 & Ey)]];
          [ assert (K1 : w_q n1 = p) by (destruct (Hp n1 (In' _ N1) On1) as [K|K]; [exact K | rewrite K in Sn1; congruence]); rewrite Sq, K1, Spp in S1; rewrite Ey; first [exact K1 | discriminate S1]
          | rewrite Sq, K1, Spp in S1; first [discriminate S1 | exact Ey] ]);
        assert (Fe : w_on e j = true -> w_q e = p' /\ w_on n0 j = true /\ w_q n0 = p) by (unfold p'; intros O; destruct (Me O) as [On0 [[S1 Ee] | (S1 & Ob & K1 & K2 & Ee)]];
          [ assert (K1 : w_q n0 = p) by (destruct (Hp n0 (In' _ (or_introl eq_refl)) On0) as [K|K]; [exact K | rewrite K in Sn0; congruence]); rewrite Sq, K1, Spp in S1;
            first [discriminate S1 | rewrite Ee; repeat split; assumption]
          | exfalso; rewrite K2 in Sn0; congruence ]);
        assert (Fb : forall w, In w (b0 :: bs) -> w_on w j = true -> w_q w = q) by (intros w I O; destruct (Hp w (Ib w I) O) as [K|K]; [|exact K]; assert (Z := Bsp w I); rewrite K in Z; congruence);
        split;
        [ intros w I O; apply (rot_in _ _ _ E) in I; destruct I as [<-|I]; [left; exact (Fy O)|]; apply in_app_or in I as [I|[<-|[]]]; [right; exact (Fb w I O) | left; apply (Fe O)]
        | intros v w I Ov Ow; apply (cedges_rot _ _ _ E) in I; destruct (arcs_cedges y e b0 bs v w I) as [[-> ->] | [[-> ->] | [J | [-> ->]]]];
          [ left; split; [apply (Fe Ov) | exact (Fy Ow)]
          | right; left; split; [exact (Fy Ov) | exact (Fb _ (or_introl eq_refl) Ow)]
          | right; right; apply pairs_in in J as [Jv Jw]; split; [exact (Fb _ Jv Ov) | exact (Fb _ (or_intror Jw) Ow)]
          | exfalso; destruct (Fe Ow) as (_ & On0 & K0); assert (Kb := Fb _ B1 Ov);
            destruct (He b1 n0 E2 Ov On0) as [[K1 K2] | [[K1 K2] | [K1 K2]]]; congruence ] ]).
      (* p is behind, q is not *)
      1,3: (exists p, q'; 
        assert (Fy : w_on y j = true -> w_q y = q' /\ w_on n1 j = true /\ w_q n1 = q) by (unfold q'; intros O; destruct (My O) as [On1 [[S1 Ey] | (S1 & Ob & K1 & K2 & Ey)]];
          [ assert (K1 : w_q n1 = q) by (destruct (Hp n1 (In' _ N1) On1) as [K|K]; [rewrite K in Sn1; congruence | exact K]); rewrite Sq, K1, Spq in S1;
            first [discriminate S1 | rewrite Ey; repeat split; assumption]
          | exfalso; rewrite K1 in Sn1; congruence ]);
        assert (Fe : w_on e j = true -> w_q e = q') by (unfold q'; intros O; destruct (Me O) as [On0 [[S1 Ee] | (S1 & Ob & K1 & K2 & Ee)]];
          [ assert (K1 : w_q n0 = q) by (destruct (Hp n0 (In' _ (or_introl eq_refl)) On0) as [K|K]; [rewrite K in Sn0; congruence | exact K]); rewrite Sq, K1, Spq in S1; rewrite Ee;
            first [exact K1 | discriminate S1]
          | rewrite Sq, K2, Spq in S1; first [discriminate S1 | exact Ee] ]);
        assert (Fb : forall w, In w (b0 :: bs) -> w_on w j = true -> w_q w = p) by (intros w I O; destruct (Hp w (Ib w I) O) as [K|K]; [exact K|]; assert (Z := Bsp w I); rewrite K in Z; congruence);
        split;
        [ intros w I O; apply (rot_in _ _ _ E) in I; destruct I as [<-|I]; [right; apply (Fy O)|]; apply in_app_or in I as [I|[<-|[]]]; [left; exact (Fb w I O) | right; exact (Fe O)]
        | intros v w I Ov Ow; apply (cedges_rot _ _ _ E) in I; destruct (arcs_cedges y e b0 bs v w I) as [[-> ->] | [[-> ->] | [J | [-> ->]]]];
          [ right; right; split; [exact (Fe Ov) | apply (Fy Ow)]
          | exfalso; destruct (Fy Ov) as (_ & On1 & K0); assert (Kb := Fb _ (or_introl eq_refl) Ow);
            destruct (He n1 b0 E1 On1 Ow) as [[K1 K2] | [[K1 K2] | [K1 K2]]]; congruence
          | left; apply pairs_in in J as [Jv Jw]; split; [exact (Fb _ Jv Ov) | exact (Fb _ (or_intror Jw) Ow)]
          | right; left; split; [exact (Fb _ B1 Ov) | exact (Fe Ow)] ] ]).
      (* both behind *)
      assert (Fy : w_on y j = true -> False) by (intros O; destruct (My O) as [On1 _]; destruct (Hp n1 (In' _ N1) On1) as [K|K]; rewrite K in Sn1; congruence).
      assert (Fe : w_on e j = true -> False) by (intros O; destruct (Me O) as [On0 _]; destruct (Hp n0 (In' _ (or_introl eq_refl)) On0) as [K|K]; rewrite K in Sn0; congruence).
      exists p, q. split.
      * intros w I O. apply (rot_in _ _ _ E) in I. destruct I as [<-|I]; [destruct (Fy O)|]. apply in_app_or in I as [I|[<-|[]]]; [exact (Hp w (Ib w I) O) | destruct (Fe O)].
      * intros v w I Ov Ow. apply (cedges_rot _ _ _ E) in I. destruct (arcs_cedges y e b0 bs v w I) as [[-> ->] | [[-> ->] | [J | [-> ->]]]].
        -- destruct (Fe Ov).
        -- destruct (Fy Ov).
        -- exact (He v w (E3 _ J) Ov Ow).
        -- destruct (Fe Ow).
    + right. destruct (w_on y j) eqn:Oy; [|exists y; split; [apply (rot_in _ _ _ Es); left; reflexivity | exact Oy]].
      destruct (w_on e j) eqn:Oe; [|exists e; split; [apply (rot_in _ _ _ Es); right; apply in_or_app; right; left; reflexivity | exact Oe]].
      destruct (w_on b0 j) eqn:Ob0; [|exists b0; split; [apply (rot_in _ _ _ Es); right; left; reflexivity | exact Ob0]].
      destruct (w_on b1 j) eqn:Ob1; [|exists b1; split; [apply (rot_in _ _ _ Es); right; apply in_or_app; left; exact B1 | exact Ob1]].
      exfalso. destruct (My eq_refl) as [On1 _]. destruct (Me eq_refl) as [On0 _].
      assert (D1 := Diff b0 n1 Pb0 Pn1). assert (D2 := Diff b1 n0 Pb1 Pn0). assert (D3 := Diff b1 n1 Pb1 Pn1).
      destruct (He n1 b0 E1 On1 Ob0) as [[K1 K2] | [[K1 K2] | [K1 K2]]]; try congruence.
      destruct (He b1 n0 E2 Ob1 On0) as [[K3 K4] | [[K3 K4] | [K3 K4]]]; congruence.
Qed.
(** The step of the plane itself. *)
Lemma marks_own k pos ws : convex_poly (map w_q ws) -> (forall w, In w ws -> w_on w k = false) ->
  two_marks k (clipw t k pos ws) /\ some_unmarked k (clipw t k pos ws).
Proof.
  intros C U. destruct (clipw_clipped t k pos ws C) as [A | N | b0 bs n0 ns r R X Y E].
  - split.
    + exists (0, 0), (0, 0). split; [intros w I O; rewrite (U w I) in O; discriminate | intros a b I O; apply cedges_in in I as [I _]; rewrite (U a I) in O; discriminate].
    + destruct ws as [|w ws]; [left; reflexivity | right; exists w; split; [left; reflexivity | apply U; left; reflexivity]].
  - split; [exists (0, 0), (0, 0); split; [intros w [] | intros a b []] | left; reflexivity].
  - assert (Rs := rot_sym _ _ R). assert (Es := rot_sym _ _ E).
    assert (Ub : forall w, In w (b0 :: bs) -> w_on w k = false) by (intros w I; apply U, (rot_in _ _ _ Rs), in_or_app; left; exact I).
    assert (B1 : In (last bs b0) (b0 :: bs)) by (rewrite <- (last_cons b0 bs b0); apply last_in; discriminate).
    set (y := join (sdw t k pos) (interw t k pos) (markw k) (last ns n0) b0) in *. set (e := join (sdw t k pos) (interw t k pos) (markw k) (last bs b0) n0) in *.
    split; [|right; exists b0; split; [apply (rot_in _ _ _ Es); right; left; reflexivity | apply Ub; left; reflexivity]].
    exists (w_q e), (w_q y). split.
    + intros w I O. apply (rot_in _ _ _ E) in I. destruct I as [<-|I]; [right; reflexivity|]. apply in_app_or in I as [I|[<-|[]]]; [|left; reflexivity].
      rewrite (Ub w I) in O. discriminate.
    + intros v w I Ov Ow. apply (cedges_rot _ _ _ E) in I. destruct (arcs_cedges y e b0 bs v w I) as [[-> ->] | [[-> ->] | [J | [-> ->]]]].
      * right; left; split; reflexivity.
      * rewrite (Ub b0 (or_introl eq_refl)) in Ow. discriminate.
      * apply pairs_in in J as [J _]. rewrite (Ub v J) in Ov. discriminate.
      * rewrite (Ub _ B1) in Ov. discriminate.
Qed.
Lemma all_unmarked l : forall ws j, StronglySorted lt (map fst l) -> convex_poly (map w_q ws) ->
  (forall i, In i (map fst l) -> forall w, In w ws -> forall j', w_on w j' = true -> (j' < i)%nat) ->
  (In j (map fst l) /\ (forall w, In w ws -> w_on w j = false)) \/ (two_marks j ws /\ some_unmarked j ws /\ forall i, In i (map fst l) -> (j < i)%nat) ->
  some_unmarked j (clip_all t l ws).
Proof.
  induction l as [|[k pos] l IH]; intros ws j So C M H; [destruct H as [[[] _] | (_ & S & _)]; exact S|].
  cbn [map fst] in *. inversion So as [|? ? So' Lt]; subst. apply (IH (clipw t k pos ws)).
  - exact So'.
  - apply clipw_convex, C.
  - intros i Ii w Iw j' O. assert (Ki : (k < i)%nat) by (rewrite Forall_forall in Lt; apply Lt, Ii).
    destruct (clipw_vertex k pos ws w C Iw) as [J | (a & b & Ia & Ib & _ & _ & Hj)]; [exact (M i (or_intror Ii) w J j' O)|].
    destruct (Hj j' O) as [-> | [[Oa _] | [Oa _]]]; [exact Ki | exact (M i (or_intror Ii) a Ia j' Oa) | exact (M i (or_intror Ii) a Ia j' Oa)].
  - destruct H as [[[->|Ij] Z] | (T & S & Lj)].
    + right. destruct (marks_own j pos ws C Z) as [A B]. split; [exact A|]. split; [exact B|]. intros i Ii. rewrite Forall_forall in Lt. apply Lt, Ii.
    + left. split; [exact Ij|]. intros w Iw. destruct (w_on w j) eqn:O; [|reflexivity].
      assert (Kj : (k < j)%nat) by (rewrite Forall_forall in Lt; apply Lt, Ij).
      destruct (clipw_vertex k pos ws w C Iw) as [J | (a & b & Ia & Ib & _ & _ & Hj)]; [rewrite (Z w J) in O; discriminate|].
      destruct (Hj j O) as [-> | [[Oa _] | [Oa _]]]; [lia | rewrite (Z a Ia) in Oa; discriminate | rewrite (Z a Ia) in Oa; discriminate].
    + right. destruct (marks_step k pos j ws (Lj k (or_introl eq_refl)) C T S) as [A B]. split; [exact A|]. split; [exact B|]. intros i Ii. apply Lj. right; exact Ii.
Qed.
End Inv.
