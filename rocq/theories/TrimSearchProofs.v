(** The loop of the search follows its specification. *)
From Coq Require Import Reals List Arith Bool Lia Lra.
From Verif Require Import Geo MappingModel TrimmedQuadModel MeshModel MeshGeoModel ClipModel SearchModel GeoQueryModel DomainModel ContourModel DomainProps SatMain ContourProofs TrimSearchModel TrimSearchSpec.
Import ListNotations.
Local Open Scope R_scope.

Section Loop.
Variable src : mesh pt.
Variable g : gquery.
Variable lookup : plane -> list point2 -> point2 -> option nat.
Variable sort_points : list point2 -> list point2.
Variable sort_edges : list point2 -> list (edge2 * bool) -> list (edge2 * bool).
Variable inside : cmesh -> R -> pt -> bool.
Variable rnd : nat -> pt * pt.
Variables (ratio : R) (min : nat) (neglect : bool) (cell step : R).
Hypothesis draws : forall k i, 1 <= at_ i (fst (rnd k)) <= 100 /\ 1 <= at_ i (snd (rnd k)) <= 100.
Hypothesis step_pos : 0 < step.
Notation clip := (clip_cell src g).
Notation build := (fun m lo hi => make_domain lookup sort_points sort_edges inside m lo hi min).
Notation loop := (search_loop src g lookup sort_points sort_edges inside rnd ratio min neglect cell step).

(** The choice of the loop as a function of the attempts. *)
Definition pick (s : option domain * R) (a : attempt) : option domain * R :=
  match a_domain a with
  | Some (d, v, q) => if rltb q (snd s) && rltb ratio (v / cell) then (Some d, q) else s
  | None => s
  end.
Definition finish (s : option domain * R) : option domain := if rltb (/ 10 ^ 2) (snd s) && neglect then None else fst s.
Definition left_of (iteration : nat) (switch : bool) : nat := (2 * (15 - iteration) - (if switch then 1 else 0))%nat.

Lemma loop_spec : forall fuel iteration switch lo hi best error k, (iteration <= 15)%nat -> (iteration < 15 \/ switch = false)%nat -> (left_of iteration switch <= fuel)%nat ->
  loop fuel iteration switch lo hi best error k <> Endless /\
  (loop fuel iteration switch lo hi best error k = Failed ->
     exists l lo' hi' sw, starts lo hi switch (l ++ [Attempt lo' hi' sw None]) /\ linked step (l ++ [Attempt lo' hi' sw None]) /\ Forall (tried clip build) l /\
       (length l < left_of iteration switch)%nat /\
       (clip lo' hi' = None \/ exists m, clip lo' hi' = Some m /\ (0 < num_triangles (cm_mesh m))%nat /\
          (build m lo' hi' sw = None \/ exists d, build m lo' hi' sw = Some d /\ (mesh_volume (dm_closed d) = None \/ estimate_quality (dm_closed d) = None)))) /\
  (forall r, loop fuel iteration switch lo hi best error k = Found r ->
     exists l, starts lo hi switch l /\ linked step l /\ Forall (tried clip build) l /\
       ((exists l0 a d v q, l = l0 ++ [a] /\ (length l <= left_of iteration switch)%nat /\ Forall (fun b => ~ good b) l0 /\ a_domain a = Some (d, v, q) /\ q < / 10 ^ 5 /\ r = (if rltb ratio (v / cell) then Some d else None)) \/
        (length l = left_of iteration switch /\ Forall (fun b => ~ good b) l /\ r = finish (fold_left pick l (best, error))))).
Proof.
  induction fuel as [|fuel IH]; intros iteration switch lo hi best error k I15 Sw Fu; cbn [search_loop]; destruct (iteration <? 15)%nat eqn:It.
  - apply Nat.ltb_lt in It. exfalso. unfold left_of in Fu. destruct switch; lia.
  - apply Nat.ltb_ge in It. assert (E : iteration = 15%nat) by lia. subst. destruct Sw as [X|X]; [lia|]. subst. split; [destruct (_ && _); discriminate|]. split; [destruct (_ && _); discriminate|].
    intros r H. exists []. split; [exact I|]. split; [exact I|]. split; [constructor|]. right. split; [reflexivity|]. split; [constructor|].
    unfold finish. cbn [fold_left fst snd]. destruct (_ && _); injection H as <-; reflexivity.
  - apply Nat.ltb_lt in It.
    assert (N : forall r0 lo' hi' best' error' k', tried clip build (Attempt lo hi switch r0) -> ~ good (Attempt lo hi switch r0) ->
      (forall a, a_lo a = lo' -> a_hi a = hi' -> a_switch a = negb switch -> follows step (Attempt lo hi switch r0) a) ->
      (best', error') = pick (best, error) (Attempt lo hi switch r0) ->
      let next := loop fuel (if switch then S iteration else iteration) (negb switch) lo' hi' best' error' k' in
      next <> Endless /\
      (next = Failed ->
         exists l lo'' hi'' sw, starts lo hi switch (l ++ [Attempt lo'' hi'' sw None]) /\ linked step (l ++ [Attempt lo'' hi'' sw None]) /\ Forall (tried clip build) l /\
           (length l < left_of iteration switch)%nat /\
           (clip lo'' hi'' = None \/ exists m, clip lo'' hi'' = Some m /\ (0 < num_triangles (cm_mesh m))%nat /\
              (build m lo'' hi'' sw = None \/ exists d, build m lo'' hi'' sw = Some d /\ (mesh_volume (dm_closed d) = None \/ estimate_quality (dm_closed d) = None)))) /\
      (forall r, next = Found r ->
         exists l, starts lo hi switch l /\ linked step l /\ Forall (tried clip build) l /\
           ((exists l0 a d v q, l = l0 ++ [a] /\ (length l <= left_of iteration switch)%nat /\ Forall (fun b => ~ good b) l0 /\ a_domain a = Some (d, v, q) /\ q < / 10 ^ 5 /\ r = (if rltb ratio (v / cell) then Some d else None)) \/
            (length l = left_of iteration switch /\ Forall (fun b => ~ good b) l /\ r = finish (fold_left pick l (best, error)))))).
    { intros r0 lo' hi' best' error' k' Tr Ng Fo Pi next.
      assert (Lf : left_of iteration switch = S (left_of (if switch then S iteration else iteration) (negb switch))) by (unfold left_of; destruct switch; cbn [negb]; lia).
      destruct (IH (if switch then S iteration else iteration) (negb switch) lo' hi' best' error' k') as (A & B & C).
      { destruct switch; lia. } { destruct switch; cbn [negb]; [right; reflexivity|left; lia]. } { rewrite Lf in Fu. lia. }
      assert (Li : forall l, starts lo' hi' (negb switch) l -> linked step l -> linked step (Attempt lo hi switch r0 :: l)).
      { intros l S L. destruct l as [|b l]; [exact I|]. destruct S as (S1 & S2 & S3). split; [apply Fo; assumption|exact L]. }
      split; [exact A|]. split.
      - intros F. destruct (B F) as (l & lo'' & hi'' & sw & S & L & T & Le & R0). exists (Attempt lo hi switch r0 :: l), lo'', hi'', sw.
        split; [repeat split|]. split; [cbn [app]; apply Li; assumption|]. split; [constructor; assumption|]. split; [cbn [length]; lia|exact R0].
      - intros r F. destruct (C r F) as (l & S & L & T & D). exists (Attempt lo hi switch r0 :: l). split; [repeat split|]. split; [apply Li; assumption|]. split; [constructor; assumption|].
        destruct D as [(l0 & a & d & v & q & -> & Le & Ng' & Ad & Q & ->)|(Le & Ng' & ->)].
        + left. exists (Attempt lo hi switch r0 :: l0), a, d, v, q. split; [reflexivity|]. split; [cbn [length app]; cbn [length app] in *; lia|]. split; [constructor; assumption|]. auto.
        + right. split; [cbn [length]; lia|]. split; [constructor; assumption|]. cbn [fold_left]. rewrite <- Pi. reflexivity. }
    assert (Fail : forall P : outcome, P = Failed -> (clip lo hi = None \/ exists m, clip lo hi = Some m /\ (0 < num_triangles (cm_mesh m))%nat /\
          (build m lo hi switch = None \/ exists d, build m lo hi switch = Some d /\ (mesh_volume (dm_closed d) = None \/ estimate_quality (dm_closed d) = None))) ->
      P <> Endless /\
      (P = Failed ->
         exists l lo'' hi'' sw, starts lo hi switch (l ++ [Attempt lo'' hi'' sw None]) /\ linked step (l ++ [Attempt lo'' hi'' sw None]) /\ Forall (tried clip build) l /\
           (length l < left_of iteration switch)%nat /\
           (clip lo'' hi'' = None \/ exists m, clip lo'' hi'' = Some m /\ (0 < num_triangles (cm_mesh m))%nat /\
              (build m lo'' hi'' sw = None \/ exists d, build m lo'' hi'' sw = Some d /\ (mesh_volume (dm_closed d) = None \/ estimate_quality (dm_closed d) = None)))) /\
      (forall r, P = Found r ->
         exists l, starts lo hi switch l /\ linked step l /\ Forall (tried clip build) l /\
           ((exists l0 a d v q, l = l0 ++ [a] /\ (length l <= left_of iteration switch)%nat /\ Forall (fun b => ~ good b) l0 /\ a_domain a = Some (d, v, q) /\ q < / 10 ^ 5 /\ r = (if rltb ratio (v / cell) then Some d else None)) \/
            (length l = left_of iteration switch /\ Forall (fun b => ~ good b) l /\ r = finish (fold_left pick l (best, error)))))).
    { intros P -> W. split; [discriminate|]. split; [|discriminate]. intros _. exists [], lo, hi, switch. split; [repeat split|]. split; [exact I|]. split; [constructor|].
      split; [cbn [length]; unfold left_of; destruct switch; lia|exact W]. }
    destruct (clip lo hi) as [m|] eqn:Cl; [|apply Fail; auto].
    destruct (0 <? num_triangles (cm_mesh m))%nat eqn:Nt.
    + apply Nat.ltb_lt in Nt. destruct (make_domain lookup sort_points sort_edges inside m lo hi min switch) as [d|] eqn:Mk; [|apply Fail; eauto 10].
      destruct (mesh_volume (dm_closed d)) as [v|] eqn:Vo; [|apply Fail; eauto 10].
      destruct (estimate_quality (dm_closed d)) as [q|] eqn:Qu; [|apply Fail; eauto 10].
      assert (Tr : tried clip build (Attempt lo hi switch (Some (d, v, q)))) by (exists m; cbn; auto).
      destruct (rltb q (/ 10 ^ 5)) eqn:Q5.
      * apply rltb_true in Q5. split; [discriminate|]. split; [discriminate|]. intros r [= <-]. exists [Attempt lo hi switch (Some (d, v, q))].
        split; [repeat split|]. split; [exact I|]. split; [constructor; [exact Tr|constructor]|]. left. exists [], (Attempt lo hi switch (Some (d, v, q))), d, v, q.
        split; [reflexivity|]. split; [cbn [length]; unfold left_of; destruct switch; lia|]. split; [constructor|]. auto.
      * apply rltb_false in Q5.
        assert (Ng : ~ good (Attempt lo hi switch (Some (d, v, q)))) by (intros (d' & v' & q' & [= <- <- <-] & Q'); lra).
        assert (Pi : (if rltb q error && rltb ratio (v / cell) then Some d else best, if rltb q error && rltb ratio (v / cell) then q else error) = pick (best, error) (Attempt lo hi switch (Some (d, v, q)))).
        { unfold pick. cbn [a_domain snd]. destruct (_ && _); reflexivity. }
        destruct switch; refine (N _ _ _ _ _ _ Tr Ng _ Pi).
        -- intros a A1 A2 A3. split; [exact A3|]. cbn [a_switch a_domain a_lo a_hi]. intros i. destruct (draws k i) as [D1 D2]. rewrite A1, A2.
           assert (E1 : at_ i (vsub lo (vscale step (fst (rnd k)))) = at_ i lo - step * at_ i (fst (rnd k))) by (destruct i; reflexivity).
           assert (E2 : at_ i (vadd hi (vscale step (snd (rnd k)))) = at_ i hi + step * at_ i (snd (rnd k))) by (destruct i; reflexivity).
           rewrite E1, E2. clear - D1 D2 step_pos. split; split; nra.
        -- intros a A1 A2 A3. split; [exact A3|]. cbn. auto.
    + apply Nat.ltb_ge in Nt. assert (Tr : tried clip build (Attempt lo hi switch None)) by (exists m; cbn; split; [exact Cl|lia]).
      refine (N None _ _ _ _ _ Tr _ _ eq_refl); [intros (d' & v' & q' & [=] & _)|]. intros a A1 A2 A3. split; [exact A3|]. cbn. destruct switch; auto.
  - apply Nat.ltb_ge in It. assert (E : iteration = 15%nat) by lia. subst. destruct Sw as [X|X]; [lia|]. subst. split; [destruct (_ && _); discriminate|]. split; [destruct (_ && _); discriminate|].
    intros r H. exists []. split; [exact I|]. split; [exact I|]. split; [constructor|]. right. split; [reflexivity|]. split; [constructor|].
    unfold finish. cbn [fold_left fst snd]. destruct (_ && _); injection H as <-; reflexivity.
Qed.

(** The choice of the loop is the best attempt. *)
Lemma pick_best : forall l, (exists d q, best_of ratio cell l d q /\ fold_left pick l (None, 5 / 10) = (Some d, q)) \/
  ((forall a d q, In a l -> ~ usable ratio cell a d q) /\ fold_left pick l (None, 5 / 10) = (None, 5 / 10)).
Proof.
  induction l as [|a l IH] using rev_ind; [right; split; [intros a d q []|reflexivity]|]. rewrite fold_left_app. cbn [fold_left].
  set (s := fold_left pick l (None, 5 / 10)) in *.
  destruct (a_domain a) as [[[d v] q]|] eqn:Ad.
  - destruct (Rlt_dec ratio (v / cell)) as [Rt|Rt]; [destruct (Rlt_dec q (snd s)) as [Lt|Lt]|].
    + left. exists d, q. unfold pick at 1. rewrite Ad, (rltb_yes _ _ Lt), (rltb_yes _ _ Rt). split; [|reflexivity].
      assert (Us : q < 1 / 2 /\ forall b d' q', In b l -> usable ratio cell b d' q' -> q < q').
      { destruct IH as [(d0 & q0 & B & E)|(No & E)]; rewrite E in Lt; cbn [snd] in Lt.
        - destruct B as (l1 & b & l2 & -> & (v0 & B1 & B2 & B3) & B4 & B5). split; [lra|]. intros c d' q' Ic U. apply in_app_or in Ic as [Ic|[<-|Ic]].
          + specialize (B4 _ _ _ Ic U). lra.
          + destruct U as (v' & U & _). rewrite B1 in U. injection U as _ _ <-. exact Lt.
          + specialize (B5 _ _ _ Ic U). lra.
        - split; [lra|]. intros c d' q' Ic U. destruct (No _ _ _ Ic U). }
      exists l, a, []. split; [reflexivity|]. split; [exists v; split; [exact Ad|]; split; [exact Rt|apply Us]|]. split; [apply Us|intros b d' q' []].
    + unfold pick at 1 2. rewrite Ad, (rltb_no q (snd s)) by lra. cbn [andb]. destruct IH as [(d0 & q0 & (l1 & b & l2 & El & U & B4 & B5) & E)|(No & E)]; rewrite E in Lt; cbn [snd] in Lt.
      * left. exists d0, q0. split; [|exact E]. exists l1, b, (l2 ++ [a]). split; [rewrite El, <- app_assoc; reflexivity|]. split; [exact U|]. split; [exact B4|].
        intros c d' q' Ic U'. apply in_app_or in Ic as [Ic|[<-|[]]]; [exact (B5 _ _ _ Ic U')|]. destruct U' as (v' & U' & _). rewrite Ad in U'. injection U' as _ _ <-. lra.
      * right. split; [|exact E]. intros c d' q' Ic U'. apply in_app_or in Ic as [Ic|[<-|[]]]; [exact (No _ _ _ Ic U')|]. destruct U' as (v' & U' & _ & X). rewrite Ad in U'. injection U' as _ _ <-. lra.
    + unfold pick at 1 2. rewrite Ad, (rltb_no ratio (v / cell)) by lra. rewrite andb_false_r. destruct IH as [(d0 & q0 & (l1 & b & l2 & El & U & B4 & B5) & E)|(No & E)].
      * left. exists d0, q0. split; [|exact E]. exists l1, b, (l2 ++ [a]). split; [rewrite El, <- app_assoc; reflexivity|]. split; [exact U|]. split; [exact B4|].
        intros c d' q' Ic U'. apply in_app_or in Ic as [Ic|[<-|[]]]; [exact (B5 _ _ _ Ic U')|]. destruct U' as (v' & U' & X & _). rewrite Ad in U'. injection U' as _ <- _. lra.
      * right. split; [|exact E]. intros c d' q' Ic U'. apply in_app_or in Ic as [Ic|[<-|[]]]; [exact (No _ _ _ Ic U')|]. destruct U' as (v' & U' & X & _). rewrite Ad in U'. injection U' as _ <- _. lra.
  - unfold pick at 1 2. rewrite Ad. destruct IH as [(d0 & q0 & (l1 & b & l2 & El & U & B4 & B5) & E)|(No & E)].
    + left. exists d0, q0. split; [|exact E]. exists l1, b, (l2 ++ [a]). split; [rewrite El, <- app_assoc; reflexivity|]. split; [exact U|]. split; [exact B4|].
      intros c d' q' Ic U'. apply in_app_or in Ic as [Ic|[<-|[]]]; [exact (B5 _ _ _ Ic U')|]. destruct U' as (v' & U' & _). congruence.
    + right. split; [|exact E]. intros c d' q' Ic U'. apply in_app_or in Ic as [Ic|[<-|[]]]; [exact (No _ _ _ Ic U')|]. destruct U' as (v' & U' & _). congruence.
Qed.
Lemma loop_chosen lo hi r : loop 28 1 false lo hi None (5 / 10) 0 = Found r ->
  exists l, attempts clip build step lo hi l /\ chosen ratio cell neglect l r.
Proof.
  intros H. destruct (loop_spec 28 1 false lo hi None (5 / 10) 0) as (_ & _ & C); [lia|lia|unfold left_of; lia|]. destruct (C r H) as (l & S & L & T & D).
  exists l. split; [split; [exact S|split; assumption]|]. destruct D as [(l0 & a & d & v & q & E & Le & Ng & Ad & Q & ->)|(Le & Ng & ->)].
  - left. exists l0, a, d, v, q. split; [exact E|]. split; [exact Le|]. split; [exact Ng|]. split; [exact Ad|]. split; [exact Q|]. split; intros X; [rewrite rltb_yes by exact X|rewrite rltb_no by exact X]; reflexivity.
  - right. split; [exact Le|]. split; [exact Ng|]. destruct (pick_best l) as [(d & q & B & E)|(No & E)]; rewrite E; unfold finish; cbn [fst snd].
    + left. exists d, q. split; [exact B|]. split.
      * intros [-> | X]; [rewrite andb_false_r; reflexivity|]. rewrite rltb_no by exact X. reflexivity.
      * intros -> X. rewrite rltb_yes by exact X. reflexivity.
    + right. split; [exact No|]. destruct (_ && _); reflexivity.
Qed.
End Loop.
