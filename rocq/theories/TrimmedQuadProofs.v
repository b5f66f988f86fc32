From Coq Require Import Arith NArith Reals List Bool Lra Lia Permutation.
From Verif Require Import Geo GridStoreModel GgqModel Ggq1dModel GaussModel MappingModel PolyModel OctreeModel TrimmedQuadModel.
Import ListNotations.
Local Open Scope R_scope.

Lemma rows_length o : length (rows o) = number_of_functions o.
Proof.
  destruct o as ((ou & ov) & ow). unfold rows, number_of_functions.
  assert (E1 : forall {A B} (f : A -> list B) l n, (forall a, length (f a) = n) -> length (flat_map f l) = (length l * n)%nat).
  { intros A B f l n H. induction l as [|a l IH]; [reflexivity|]. simpl. rewrite app_length, IH, H. reflexivity. }
  rewrite (E1 _ _ _ _ ((ov + 1) * (ow + 1))%nat).
  - rewrite seq_length. lia.
  - intros i. rewrite (E1 _ _ _ _ (ow + 1)%nat); [rewrite seq_length; reflexivity|]. intros j. rewrite map_length, seq_length. reflexivity.
Qed.

Lemma drop_below_in t l q : In q (drop_below t l) <-> In q l /\ t <= ip_weight q.
Proof. unfold drop_below. rewrite filter_In. destruct (Rlt_dec (ip_weight q) t); split; intros (H1 & H2); split; try assumption; try discriminate; try lra; reflexivity. Qed.
Lemma drop_below_length t l : (length (drop_below t l) <= length l)%nat.
Proof. unfold drop_below. induction l as [|q l IH]; simpl; [lia|]. destruct (Rlt_dec (ip_weight q) t); simpl; lia. Qed.
Lemma drop_below_same t l : length (drop_below t l) = length l -> drop_below t l = l.
Proof.
  unfold drop_below. induction l as [|q l IH]; simpl; [reflexivity|]. destruct (Rlt_dec (ip_weight q) t); simpl; intros H.
  - pose proof (drop_below_length t l). unfold drop_below in *. lia.
  - f_equal. apply IH. lia.
Qed.
Lemma erase_at_length i l : (i < length l)%nat -> length (erase_at i l) = (length l - 1)%nat.
Proof. intros H. unfold erase_at. rewrite app_length, firstn_length, skipn_length. lia. Qed.
Lemma erase_at_in i l q : In q (erase_at i l) -> In q l.
Proof.
  unfold erase_at. rewrite in_app_iff. intros [H|H].
  - rewrite <- (firstn_skipn i l). apply in_app_iff. left. assumption.
  - rewrite <- (firstn_skipn (S i) l). apply in_app_iff. right. assumption.
Qed.
Lemma min_max_index l : forall i mi mv xv n, (mi < n)%nat -> (i + length l <= n)%nat -> (fst (fst (min_max i l (mi, mv, xv))) < n)%nat.
Proof.
  induction l as [|q l IH]; intros i mi mv xv n H1 H2; [exact H1|]. cbn [min_max length] in *.
  destruct (Rlt_dec (ip_weight q) mv); apply IH; lia.
Qed.

Section PE.
Variable nnls : list (list R) -> list R -> list R * R.
Variable sort : list ipoint -> list ipoint.
Variables mind maxd : R.
Variable cb : ebounds.
Variable o : nat * nat * nat.
Variable target : R.
Hypothesis sort_perm : forall l, Permutation (sort l) l.
Variable ct : list R.
Notation nf := (number_of_functions o).
Notation fit := (moment_fitting nnls cb o ct).
Notation body := (pe_body nnls sort maxd cb o target ct).
Notation loop := (fun n => pe_loop nnls sort maxd cb o target n ct).
Notation cont := (pe_continue target).

(** the points and the residual of one solve of the moment fitting equation *)
Definition fitted (pts : list ipoint) (r : R) : Prop := exists cand, (pts, r) = fit cand.
Definition positions_in (S0 : list ipoint) (l : list ipoint) : Prop := forall q, In q l -> exists q', In q' S0 /\ ip_pos q' = ip_pos q.

Lemma set_weights_length l : forall ws, length (set_weights cb l ws) = length l.
Proof. induction l as [|q l IH]; intros ws; simpl; [reflexivity|]. f_equal. apply IH. Qed.
Lemma set_weights_pos l : forall ws, map ip_pos (set_weights cb l ws) = map ip_pos l.
Proof. induction l as [|q l IH]; intros ws; simpl; [reflexivity|]. f_equal. apply IH. Qed.
Lemma fit_length l : length (fst (fit l)) = length l.
Proof. unfold moment_fitting. destruct (nnls _ _) as (ws & rn). simpl. apply set_weights_length. Qed.
Lemma fit_pos l : map ip_pos (fst (fit l)) = map ip_pos l.
Proof. unfold moment_fitting. destruct (nnls _ _) as (ws & rn). simpl. apply set_weights_pos. Qed.
Lemma positions_refl l : positions_in l l.
Proof. intros q H. exists q. auto. Qed.
Lemma positions_trans a b c : positions_in a b -> positions_in b c -> positions_in a c.
Proof. intros H1 H2 q Hq. destruct (H2 q Hq) as (q1 & Hq1 & E1). destruct (H1 q1 Hq1) as (q2 & Hq2 & E2). exists q2. split; [assumption|congruence]. Qed.
Lemma positions_fit l : positions_in l (fst (fit l)).
Proof.
  intros q Hq. assert (H : In (ip_pos q) (map ip_pos (fst (fit l)))) by (apply in_map; assumption). rewrite fit_pos in H. apply in_map_iff in H.
  destruct H as (q' & E & H). exists q'. auto.
Qed.
Lemma positions_sub a b c : positions_in a b -> (forall q, In q c -> In q b) -> positions_in a c.
Proof. intros H1 H2 q Hq. apply H1, H2, Hq. Qed.
Lemma below_true r : below_target target r = true <-> r < target.
Proof. unfold below_target. destruct (Rlt_dec r target); split; congruence || tauto. Qed.
Lemma below_false r : below_target target r = false <-> target <= r.
Proof. unfold below_target. destruct (Rlt_dec r target); split; intros; try discriminate; try lra; reflexivity. Qed.

(** facts about a state after the first iteration *)
Definition small (S0 l : list ipoint) : Prop := (length l <= nf)%nat /\ positions_in S0 l.
Definition first_done (S0 : list ipoint) (s : pe) : Prop :=
  pe_iter s = 1%N /\ pe_elim s = true /\ pe_prev s = [] /\ small S0 (pe_pts s).
Definition later (S0 : list ipoint) (s : pe) : Prop :=
  (1 < pe_iter s)%N /\ small S0 (pe_pts s) /\ small S0 (pe_prev s) /\
  (fitted (pe_prev s) (pe_prev_res s) /\ pe_prev_res s < target \/ pe_prev s = [] /\ pe_iter s = 2%N /\ pe_elim s = false) /\
  (pe_elim s = false -> fitted (pe_pts s) (pe_global s) /\ cont s = false).

Lemma small_fit S0 l : small S0 l -> small S0 (fst (fit l)).
Proof. intros (H1 & H2). split; [rewrite fit_length; assumption|]. eapply positions_trans; [exact H2|apply positions_fit]. Qed.
Lemma fit_fitted l : fitted (fst (fit l)) (snd (fit l)).
Proof. exists l. symmetry. apply surjective_pairing. Qed.

Lemma first_body s : pe_iter s = 0%N -> pe_prev s = [] ->
  if (length (pe_pts s) <? nf)%nat then body s = Undefined
  else exists s', (body s = Ok (false, s') /\ pe_pts s' = [] /\ pe_prev s' = [] /\ pe_iter s' = 0%N) \/
                  (body s = Ok (true, s') /\ first_done (pe_pts s) s' /\ (length (pe_pts s') <= length (pe_pts s))%nat).
Proof.
  intros Hi Hp. unfold pe_body. destruct (fit (pe_pts s)) as (pts & r) eqn:Ef. rewrite Hi. simpl (0 =? 0)%N. cbv iota.
  assert (L : length (sort pts) = length (pe_pts s)).
  { rewrite (Permutation_length (sort_perm pts)). pose proof (fit_length (pe_pts s)) as H. rewrite Ef in H. exact H. }
  rewrite L. destruct (Nat.ltb_spec (length (pe_pts s)) nf) as [H|H]; [reflexivity|].
  set (kept := drop_below zerotol (firstn nf (sort pts))).
  assert (K : small (pe_pts s) kept).
  { split.
    - eapply Nat.le_trans; [apply drop_below_length|]. rewrite firstn_length. lia.
    - pose proof (positions_fit (pe_pts s)) as H1. rewrite Ef in H1. eapply positions_sub; [exact H1|]. intros q Hq. apply drop_below_in in Hq. destruct Hq as (Hq & _).
      apply (Permutation_in _ (sort_perm pts)). rewrite <- (firstn_skipn nf (sort pts)). apply in_app_iff. left. assumption. }
  clearbody kept. destruct kept as [|q kept']; eexists.
  - left. split; [reflexivity|]. cbn [pe_pts pe_prev pe_iter]. auto.
  - right. split; [reflexivity|]. split; [|destruct K as (K & _); cbn [pe_pts]; lia]. split; [reflexivity|]. split; [reflexivity|]. split; [exact Hp|exact K].
Qed.

Lemma next_body S0 s : first_done S0 s \/ later S0 s -> cont s = true ->
  exists s', body s = Ok (true, s') /\ later S0 s' /\ (pe_elim s' = true -> length (pe_pts s') < length (pe_pts s))%nat.
Proof.
  intros HI Hc.
  assert (Hpos : (pe_iter s <> 0)%N) by (destruct HI as [(E & _)|(E & _)]; lia).
  assert (Hsm : small S0 (pe_pts s)) by (destruct HI as [(_ & _ & _ & E)|(_ & E & _)]; assumption).
  assert (Hprev : small S0 (pe_prev s)).
  { destruct HI as [(_ & _ & E & _)|(_ & _ & E & _)]; [|assumption]. rewrite E. split; [simpl; lia|intros q []]. }
  assert (Hel : pe_elim s = true).
  { destruct HI as [(_ & E & _)|(_ & _ & _ & _ & E)]; [assumption|]. destruct (pe_elim s) eqn:El; [reflexivity|]. destruct (E eq_refl) as (_ & E'). congruence. }
  unfold pe_body. pose proof (small_fit S0 _ Hsm) as Hf. pose proof (fit_fitted (pe_pts s)) as Hff. pose proof (fit_length (pe_pts s)) as Hfl.
  destruct (fit (pe_pts s)) as (pts & r). cbn [fst snd] in Hf, Hff, Hfl.
  destruct (N.eqb_spec (pe_iter s) 0) as [E|_]; [contradiction|].
  destruct (below_target target r && (pe_iter s <? maximum_iteration)%N) eqn:Eb.
  - apply andb_true_iff in Eb. destruct Eb as (Eb & Ei). apply below_true in Eb.
    destruct (min_max 0 pts (0%nat, maxd, - maxd)) as ((mi & mv) & xv) eqn:Em.
    set (kept := drop_below (/ 10 ^ 8 * xv) pts). assert (Kl : (length kept <= length pts)%nat) by apply drop_below_length.
    set (el := negb (length kept =? length pts)%nat). set (om := negb el && (min_number_of_points o <? length kept)%nat).
    set (fin := if om then erase_at mi kept else kept).
    assert (Kin : forall q, In q fin -> In q pts).
    { intros q Hq. assert (In q kept) by (unfold fin in Hq; destruct om; [apply erase_at_in in Hq|]; assumption). apply drop_below_in in H. tauto. }
    assert (Same : el = false -> kept = pts).
    { unfold el. intros H. apply negb_false_iff, Nat.eqb_eq in H. apply drop_below_same. exact H. }
    assert (Klen : (length fin <= length pts)%nat /\ (el || om = true -> length fin < length pts)%nat).
    { unfold fin. destruct om eqn:Eom.
      - unfold om in Eom. apply andb_true_iff in Eom. destruct Eom as (E1 & E2). apply negb_true_iff in E1. apply Nat.ltb_lt in E2. rewrite (Same E1) in *.
        assert (Hmi : (mi < length pts)%nat).
        { pose proof (min_max_index pts 0 0%nat maxd (- maxd) (length pts)) as M. rewrite Em in M. simpl in M. apply M; lia. }
        rewrite erase_at_length by assumption. lia.
      - split; [assumption|]. rewrite orb_false_r. intros H. unfold el in H. apply negb_true_iff, Nat.eqb_neq in H. lia. }
    eexists. split; [reflexivity|]. cbn [pe_elim pe_pts]. split; [|intros H; rewrite <- Hfl; apply Klen; exact H].
    assert (It : (1 < (if (length fin <=? min_number_of_points o)%nat then (maximum_iteration + 10)%N else pe_iter s) + 1)%N).
    { destruct (length fin <=? min_number_of_points o)%nat; [reflexivity|lia]. }
    split; [exact It|]. split; [|split; [|split]]; cbn [pe_pts pe_prev pe_prev_res pe_elim pe_global pe_iter].
    + split; [destruct Hf as (Hf & _); lia|]. eapply positions_sub; [apply (proj2 Hf)|exact Kin].
    + exact Hf.
    + left. split; [exact Hff|exact Eb].
    + intros Hel'. apply orb_false_iff in Hel'. destruct Hel' as (E1 & E2). assert (Ef : fin = pts) by (unfold fin; rewrite E2; apply Same; assumption).
      rewrite Ef. split; [exact Hff|]. unfold pe_continue. cbn [pe_elim pe_global pe_iter]. rewrite E1, E2. cbn [orb].
      unfold om in E2. rewrite E1 in E2. cbn [negb andb] in E2. apply Nat.ltb_ge in E2. rewrite (Same E1) in E2. apply Nat.leb_le in E2. rewrite E2. apply andb_false_r.
  - eexists. split; [reflexivity|]. cbn [pe_elim]. split; [|discriminate]. split; [|split; [|split; [|split]]]; cbn [pe_iter pe_pts pe_prev pe_prev_res pe_elim pe_global].
    + lia.
    + exact Hf.
    + exact Hprev.
    + destruct HI as [(E1 & E2 & E3 & E4)|(E1 & _ & _ & E3 & _)].
      * right. rewrite E1. auto.
      * destruct E3 as [E3|(_ & _ & E3)]; [left; exact E3|congruence].
    + intros _. split; [exact Hff|]. unfold pe_continue. cbn [pe_elim pe_global pe_iter]. cbn [orb].
      apply andb_false_iff in Eb. apply andb_false_iff. destruct Eb as [Eb|Eb]; [left; exact Eb|right]. apply N.ltb_ge in Eb. apply N.ltb_ge. lia.
Qed.

Lemma later_loop S0 : forall n s, first_done S0 s \/ later S0 s -> (length (pe_pts s) < n)%nat ->
  exists s', loop n s = Ok s' /\ later S0 s' /\ cont s' = false.
Proof.
  assert (Stop : forall n s, later S0 s -> cont s = false -> exists s', loop n s = Ok s' /\ later S0 s' /\ cont s' = false).
  { intros n s H1 H2. exists s. split; [|auto]. destruct n; cbn [pe_loop]; rewrite H2; reflexivity. }
  induction n as [|n IH]; intros s HI Hn; [lia|]. destruct (cont s) eqn:Ec.
  - destruct (next_body S0 s HI Ec) as (s1 & B & L & D). cbn [pe_loop]. rewrite Ec, B. destruct (pe_elim s1) eqn:El.
    + specialize (D eq_refl). apply IH; [right; assumption|lia].
    + apply Stop; [assumption|]. destruct L as (_ & _ & _ & _ & L). apply (L El).
  - destruct HI as [(_ & E & _)|HI]; [unfold pe_continue in Ec; rewrite E in Ec; discriminate|]. cbn [pe_loop]. rewrite Ec. exists s. auto.
Qed.

(** ** point elimination as a whole *)
Notation elimination := (point_elimination nnls sort mind maxd cb o target ct).
Lemma start_continue pts : cont (PE pts mind 0 0 false []) = below_target target mind.
Proof. unfold pe_continue. cbn [pe_elim pe_global pe_iter orb]. apply andb_true_r. Qed.
Lemma elimination_spec pts elem :
  (target <= mind -> elimination pts elem = Ok (drop_below zerotol (pts ++ elem), mind, pts)) /\
  (mind < target -> (length pts < nf)%nat -> elimination pts elem = Undefined) /\
  (mind < target -> (nf <= length pts)%nat -> exists out r rest, elimination pts elem = Ok (out, r, rest) /\
     small pts rest /\
     ((rest = [] /\ out = drop_below zerotol elem) \/ exists F, fitted F r /\ small pts F /\ out = drop_below zerotol (F ++ elem))).
Proof.
  unfold point_elimination. split; [|split].
  - intros H. destruct (length pts + 4)%nat eqn:En; [lia|]. cbn [pe_loop]. rewrite start_continue, (proj2 (below_false mind) H).
    unfold pe_finish. cbn [pe_global pe_prev pe_iter pe_pts length Nat.eqb negb]. rewrite andb_false_r. reflexivity.
  - intros H L. destruct (length pts + 4)%nat eqn:En; [lia|]. cbn [pe_loop]. rewrite start_continue, (proj2 (below_true mind) H).
    pose proof (first_body (PE pts mind 0 0 false []) eq_refl eq_refl) as B. cbn [pe_pts] in B. destruct (Nat.ltb_spec (length pts) nf); [|lia]. rewrite B. reflexivity.
  - intros H L. destruct (length pts + 4)%nat as [|n] eqn:En; [lia|]. cbn [pe_loop]. rewrite start_continue, (proj2 (below_true mind) H).
    pose proof (first_body (PE pts mind 0 0 false []) eq_refl eq_refl) as B. cbn [pe_pts] in B. destruct (Nat.ltb_spec (length pts) nf); [lia|].
    destruct B as (s1 & [(B & E1 & E2 & E3)|(B & FD & Hl)]); rewrite B.
    + unfold pe_finish. rewrite E1, E2, E3. cbn [length Nat.eqb negb]. rewrite andb_false_r. cbn [orb]. change (maximum_iteration <? 0)%N with false. cbv iota.
      eexists _, _, _. split; [reflexivity|]. split; [split; [simpl; lia|intros q []]|]. left. auto.
    + destruct (later_loop pts n s1) as (s2 & EL & LT & Ec); [left; exact FD|lia|]. rewrite EL.
      destruct LT as (It & Sp & Sv & Pv & Fe).
      assert (El : pe_elim s2 = false) by (unfold pe_continue in Ec; apply orb_false_iff in Ec; tauto). destruct (Fe El) as (Ff & _).
      unfold pe_finish. destruct ((negb (below_target target (pe_global s2)) && negb (length (pe_prev s2) =? 0)%nat) || (maximum_iteration <? pe_iter s2)%N) eqn:Eb; cbv iota beta.
      * eexists _, _, _. split; [reflexivity|]. split; [exact Sp|]. right. exists (pe_prev s2). split; [|split; [exact Sv|reflexivity]].
        destruct Pv as [(Pv & _)|(P1 & P2 & P3)]; [exact Pv|]. rewrite P1, P2 in Eb. cbn [length Nat.eqb negb] in Eb. rewrite andb_false_r in Eb. discriminate.
      * eexists _, _, _. split; [reflexivity|]. split; [exact Sp|]. right. exists (pe_pts s2). split; [exact Ff|]. split; [exact Sp|reflexivity].
Qed.
End PE.
