(** Every number of knot spans, from one check per class and the checks of the short rules. *)
From Coq Require Import Arith ZArith Reals QArith Qreals List Bool Lra Lia.
From Verif Require Import SplineSpec Ggq1dModel Ggq1dProofs Ggq1dAll GgqExactCheck GgqExactRules GgqExactClasses.
Import ListNotations.
Local Open Scope nat_scope.

(** l is a rule on e spans that passes the check *)
Definition rule_chain (p r e : nat) (l : qrule) : Prop :=
  exists den es, (0 < den)%Z /\ length es = e /\ chain p r den [] es [] /\ forall f, gs l f = (/ INR e * spans den 0 es (fun x => f (x / INR e)))%R.
(** ** short rules *)
Definition zmul (s : Z) (l : list (Z * Z)) : list (Z * Z) := map (fun q => (s * fst q, s * snd q)%Z) l.
Definition short_chainb (d e : nat) (meth : ggq) : bool :=
  let '(p, r) := space_dimension d meth in
  match get_ggq d e meth with
  | Some ((q :: _) as l) =>
      let c := xO (Qden (fst q)) in
      match numerators c l with Some zl => chainb p r (Z.pos c) [] (cut (Z.pos c) e 0 (zmul (Z.of_nat e) zl)) [] | None => false end
  | _ => false
  end.
Lemma zs_mul den e l f : (0 < den)%Z -> 0 < e -> (zs den l f = / INR e * zs den (zmul (Z.of_nat e) l) (fun x => f (x / INR e)))%R.
Proof.
  intros Hd He. assert (0 < INR e)%R by (apply lt_0_INR; exact He). assert (0 < IZR den)%R by (apply IZR_lt; exact Hd). unfold zs, contribution, zmul. induction l as [|q l IH]; cbn [map fold_right fst snd]; [ring|].
  rewrite IH. rewrite !mult_IZR, <- INR_IZR_INZ. replace (INR e * IZR (fst q) / IZR den / INR e)%R with (IZR (fst q) / IZR den)%R by (field; lra). field. lra.
Qed.
Lemma short_sound d e meth : 2 <= d <= 4 -> 1 <= e -> short_chainb d e meth = true ->
  let '(p, r) := space_dimension d meth in exists l, get_ggq d e meth = Some l /\ rule_chain p r e l.
Proof.
  intros Hd He. unfold short_chainb. destruct (space_dimension d meth) as (p, r) eqn:Es. assert (Hr : r <= 2) by (destruct meth; cbn in Es; injection Es as <- <-; lia).
  intros H. destruct (get_ggq d e meth) as [[|q l0]|]; try discriminate H. cbv zeta in H. set (l := q :: l0) in *. set (c := xO (Qden (fst q))) in *. destruct (numerators c l) as [zl|] eqn:En; [|discriminate H].
  exists l. split; [reflexivity|]. exists (Z.pos c), (cut (Z.pos c) e 0 (zmul (Z.of_nat e) zl)). split; [reflexivity|]. split; [apply cut_length|]. split; [apply chainb_ok; [exact Hr|cbn; lia|exact H]|].
  intros f. rewrite (near_gs _ _ _ f (numerators_ok _ _ _ En)). rewrite (zs_mul _ e) by (reflexivity || lia). f_equal. rewrite <- (cut_spans (Z.pos c) ltac:(reflexivity) e 0) by lia. f_equal. unfold Rdiv. ring.
Qed.
(** ** classes *)
Definition long_chainb (d e0 : nat) (meth : ggq) : bool :=
  let '(p, r) := space_dimension d meth in
  let n := num_dofs p r e0 in
  let m := ceil_half n in
  match base_points d e0 meth with
  | Some [b0; b1; b2] =>
      match back_x b0, back_x b1, b0 with
      | Some x0, Some x1, q :: _ =>
          let L := ceil_nat x0 in let R := ceil_nat x1 in let h := Qden (fst q) in
          ((R =? 1) || (R =? 2)) && (R * (p - r) =? 2 * length b1) && (0 <? e0) &&
          (if 2 * m =? n then (2 * length b0 <? m) && parts_okb p r h b0 b1 [] e0 m L R
           else (2 * (length b0 + length b2) - 1 <? m) && parts_okb p r h b0 b1 b2 e0 m L R)
      | _, _, _ => false
      end
  | _ => false
  end.
Lemma scaled_chain p r den es e l : (0 < den)%Z -> 0 < e -> length es = e -> chain p r den [] es [] -> (forall g, gs l g = spans den 0 es g) -> rule_chain p r e (scale e l).
Proof. intros Hd He Hl Hc Hg. exists den, es. split; [exact Hd|]. split; [exact Hl|]. split; [exact Hc|]. intros f. rewrite gs_scale by exact He. rewrite Hg. reflexivity. Qed.
Lemma long_chain_sound d e0 meth : 2 <= d <= 4 -> long_chainb d e0 meth = true ->
  let '(p, r) := space_dimension d meth in forall k, exists l, get_ggq d (e0 + 4 * k) meth = Some l /\ rule_chain p r (e0 + 4 * k) l.
Proof.
  intros Hd H. unfold long_chainb in H. destruct (space_dimension d meth) as (p, r) eqn:Esd. intros k. unfold get_ggq. rewrite Esd. assert (Hr : r <= 2) by (destruct meth; cbn in Esd; injection Esd as <- <-; lia).
  destruct (base_points d e0 meth) as [[|b0 [|b1 [|b2 [|? ?]]]]|] eqn:Eb; try discriminate.
  destruct (back_x b0) as [x0|] eqn:Ex0; [|discriminate]. destruct (back_x b1) as [x1|] eqn:Ex1; [|discriminate]. destruct b0 as [|q0 b0'] eqn:Eb0; [discriminate|]. rewrite <- Eb0 in *.
  set (L := ceil_nat x0) in *. set (R := ceil_nat x1) in *. set (h := Qden (fst q0)) in *.
  rewrite !andb_true_iff in H. destruct H as (((HR & Hdim) & He0) & Hc).
  rewrite orb_true_iff, !Nat.eqb_eq in HR. apply Nat.eqb_eq in Hdim. apply Nat.ltb_lt in He0.
  assert (exists j, 4 * k = 2 * R * j) as (j & Hj). { destruct HR as [-> | ->]; [exists (2 * k); lia|exists k; lia]. }
  rewrite Hj. assert (En : num_dofs p r (e0 + 2 * R * j) = num_dofs p r e0 + 2 * (2 * (length b1 * j))).
  { rewrite num_dofs_add by assumption. replace (2 * R * j * (p - r)) with (2 * j * (R * (p - r))) by lia. rewrite Hdim. lia. }
  assert (Em : ceil_half (num_dofs p r (e0 + 2 * R * j)) = ceil_half (num_dofs p r e0) + 2 * (length b1 * j)) by (rewrite En; apply ceil_half_add).
  assert (Eb' : base_points d (e0 + 2 * R * j) meth = base_points d e0 meth).
  { unfold base_points. rewrite Esd. rewrite Em.
    replace ((ceil_half (num_dofs p r e0) + 2 * (length b1 * j)) mod 2) with (ceil_half (num_dofs p r e0) mod 2) by (rewrite (Nat.mul_comm 2), Nat.mod_add by lia; reflexivity).
    replace ((e0 + 2 * R * j) mod 2) with (e0 mod 2) by (replace (2 * R * j) with (R * j * 2) by lia; rewrite Nat.mod_add by lia; reflexivity).
    reflexivity. }
  rewrite Eb', Eb, Em, En. set (m0 := ceil_half (num_dofs p r e0)) in *. set (n0 := num_dofs p r e0) in *.
  assert (Econd : (2 * (m0 + 2 * (length b1 * j)) =? n0 + 2 * (2 * (length b1 * j))) = (2 * m0 =? n0)) by (apply eq_true_iff_eq; rewrite !Nat.eqb_eq; lia).
  rewrite Econd. destruct (2 * m0 =? n0); apply andb_true_iff in Hc; destruct Hc as (Hc1 & Hc2); apply Nat.ltb_lt in Hc1.
  - destruct (Nat.ltb_spec (2 * length b0) (m0 + 2 * (length b1 * j))); [|lia].
    destruct (parts_sound p r h b0 b1 [] e0 m0 L R Hr Hc2 x0 x1 Ex0 Ex1 eq_refl eq_refl j) as (l & es & El & Hl & Hch & Hg).
    rewrite El. exists (scale (e0 + 2 * R * j) l). split; [reflexivity|]. eapply scaled_chain; [| |exact Hl|exact Hch|exact Hg]; [reflexivity|lia].
  - destruct (Nat.ltb_spec (2 * (length b0 + length b2) - 1) (m0 + 2 * (length b1 * j))); [|lia].
    destruct (parts_sound p r h b0 b1 b2 e0 m0 L R Hr Hc2 x0 x1 Ex0 Ex1 eq_refl eq_refl j) as (l & es & El & Hl & Hch & Hg).
    rewrite El. exists (scale (e0 + 2 * R * j) l). split; [reflexivity|]. eapply scaled_chain; [| |exact Hl|exact Hch|exact Hg]; [reflexivity|lia].
Qed.
Definition chains_okb (start d : nat) (meth : ggq) : bool :=
  forallb (fun e => short_chainb d e meth) (seq 1 (start - 1)) && forallb (fun e => long_chainb d e meth) (seq start 4).
Lemma chains_sound start d meth : 2 <= d <= 4 -> chains_okb start d meth = true ->
  let '(p, r) := space_dimension d meth in forall e, 1 <= e -> exists l, get_ggq d e meth = Some l /\ rule_chain p r e l.
Proof.
  intros Hd. unfold chains_okb. rewrite andb_true_iff, !forallb_forall. intros (H1 & H2). destruct (space_dimension d meth) as (p, r) eqn:Esd. intros e He.
  destruct (Nat.lt_ge_cases e start) as [Hlt|Hge].
  - specialize (H1 e ltac:(apply in_seq; lia)). pose proof (short_sound d e meth Hd He H1) as X. rewrite Esd in X. exact X.
  - pose proof (Nat.div_mod (e - start) 4 ltac:(lia)) as Hdm. pose proof (Nat.mod_upper_bound (e - start) 4 ltac:(lia)) as Hm.
    set (j := (e - start) mod 4) in *. set (k := (e - start) / 4) in *.
    replace e with (start + j + 4 * k) by lia. specialize (H2 (start + j) ltac:(apply in_seq; lia)). pose proof (long_chain_sound d (start + j) meth Hd H2) as X. rewrite Esd in X. apply X.
Qed.
Lemma optimal_2 : chains_okb 25 2 Optimal = true. Proof. vm_compute. reflexivity. Qed.
Lemma optimal_3 : chains_okb 26 3 Optimal = true. Proof. vm_compute. reflexivity. Qed.
Lemma optimal_4 : chains_okb 43 4 Optimal = true. Proof. vm_compute. reflexivity. Qed.
Lemma reduced1_2 : chains_okb 5 2 Reduced1 = true. Proof. vm_compute. reflexivity. Qed.
Lemma reduced1_3 : chains_okb 9 3 Reduced1 = true. Proof. vm_compute. reflexivity. Qed.
Lemma reduced1_4 : chains_okb 49 4 Reduced1 = true. Proof. vm_compute. reflexivity. Qed.
Lemma reduced2_2 : chains_okb 32 2 Reduced2 = true. Proof. vm_compute. reflexivity. Qed.
Lemma reduced2_3 : chains_okb 26 3 Reduced2 = true. Proof. vm_compute. reflexivity. Qed.
Lemma reduced2_4 : chains_okb 48 4 Reduced2 = true. Proof. vm_compute. reflexivity. Qed.
