(** The points of the generalized Gauss rules stay away from the upper end of the interval, for every number of knot spans. *)
From Coq Require Import Arith List Bool QArith Lia Sorting.Sorted Setoid.
From Verif Require Import GgqTableOptimal GgqTableReduced1 GgqTableReduced2 Ggq1dModel Ggq1dSpec Ggq1dProofs Ggq1dAll.
Import ListNotations.
Local Open Scope nat_scope.

Definition no_point : Q * Q := (0, 0)%Q.
Definition last_ok (e : nat) (l : qrule) : Prop := (fst (last l no_point) <= 1 - (1#100) * / ofnat e)%Q.
Definition last_okb (e : nat) (l : qrule) : bool := Qle_bool (fst (last l no_point)) (1 - (1#100) * / ofnat e).
Fixpoint table_okb (e : nat) (t : list qrule) : bool := match t with [] => true | l :: t => last_okb e l && table_okb (S e) t end.
Lemma table_ok t : forall e k l, table_okb e t = true -> nth_error t k = Some l -> last_ok (e + k) l.
Proof.
  induction t as [|x t IH]; intros e k l H E; [destruct k; discriminate|]. cbn [table_okb] in H. apply andb_true_iff in H as (H1 & H2).
  destruct k as [|k]; cbn [nth_error] in E.
  - injection E as <-. rewrite Nat.add_0_r. apply Qle_bool_iff, H1.
  - replace (e + S k) with (S e + k) by lia. apply IH; assumption.
Qed.
Definition first_okb (b : list qrule) : bool := match b with b0 :: _ => match b0 with q :: _ => Qle_bool (1#100) (fst q) | [] => false end | [] => false end.
Lemma tables_fine meth : forallb (table_okb 1) (precomputed_tables meth) = true.
Proof. destruct meth; vm_compute; reflexivity. Qed.
Lemma bases_fine meth : forallb (fun p => first_okb (fst p) && first_okb (snd p)) (base_tables meth) = true.
Proof. destruct meth; vm_compute; reflexivity. Qed.
Lemma special_fine : forallb first_okb [S_4_0_base_even; S_4_0_base_odd; S_6_2_base_even; S_6_2_base_odd; S_4_1_base_odd; S_4_1_base_even_2] = true.
Proof. vm_compute; reflexivity. Qed.
Lemma base_first d e meth b : base_points d e meth = Some b -> first_okb b = true.
Proof.
  unfold base_points. destruct (space_dimension d meth) as (p, r). intros H.
  pose proof special_fine as F. rewrite forallb_forall in F.
  pose proof (bases_fine meth) as G. rewrite forallb_forall in G.
  assert (P : forall c : bool, option_map (fun t : list qrule * list qrule => if c then snd t else fst t) (nth_error (base_tables meth) (d - 2)) = Some b -> first_okb b = true).
  { intros c E. destruct (nth_error _ _) as [t|] eqn:Et; [|discriminate]. apply nth_error_In in Et. apply G in Et. apply andb_true_iff in Et as (E1 & E2). cbn in E. injection E as <-. destruct c; assumption. }
  repeat match type of H with
  | (if ?c then _ else _) = _ => destruct c
  | Some (if ?c then _ else _) = _ => destruct c
  end; try (apply P with (1 := H)); injection H as <-; apply F; cbn; tauto.
Qed.

Lemma copy_at_hd dst i src a q t : 0 < i -> dst = q :: t -> copy_at dst i src = Some a -> exists t', a = q :: t' /\ length a = length dst.
Proof.
  intros Hi -> H. unfold copy_at in H. destruct (Nat.leb_spec (i + length src) (length (q :: t))) as [L|]; [|discriminate]. injection H as <-.
  destruct i as [|i]; [lia|]. eexists. split; [reflexivity|]. rewrite !app_length, firstn_length, skipn_length. lia.
Qed.
Lemma fill_loop_hd z right b1 : forall fuel ii left a a' q t, 0 < ii -> a = q :: t -> fill_loop fuel ii z left right b1 a = Some a' -> exists t', a' = q :: t' /\ length a' = length a.
Proof.
  induction fuel as [|fuel IH]; intros ii left a a' q t Hi E H; cbn [fill_loop] in H; destruct (ii <? z); try discriminate.
  - injection H as <-. exists t. auto.
  - destruct (copy_at a ii (shift (ofnat left) b1)) as [a1|] eqn:C; [|discriminate].
    destruct (copy_at_hd _ _ _ _ _ _ Hi E C) as (t1 & E1 & L1). apply (IH _ _ _ _ q t1) in H as (t2 & E2 & L2); [|lia|exact E1]. exists t2. split; [exact E2|congruence].
  - injection H as <-. exists t. auto.
Qed.
Lemma construct_last m e b0 b1 b2 q t l : b0 = q :: t -> length b2 < ceil_half m -> construct m e b0 b1 b2 = Some l -> fst (last l no_point) = (ofnat e - fst q)%Q.
Proof.
  intros E0 Hz H. unfold construct in H. set (z := ceil_half m) in *.
  destruct (copy_at (repeat (0%Q, 0%Q) m) 0 b0) as [a0|] eqn:C0; [|discriminate]. destruct (back_x b0) as [x0|]; [|discriminate]. destruct (back_x b1) as [x1|]; [|discriminate].
  destruct (fill_loop _ _ _ _ _ _ _) as [a1|] eqn:F; [|discriminate]. destruct (Nat.leb_spec (length b2) z); [|discriminate].
  destruct (copy_at a1 _ _) as [a2|] eqn:C2; [|discriminate].
  assert (exists t0, a0 = q :: t0) as (t0 & A0). { unfold copy_at in C0. destruct (_ <=? _); [|discriminate]. injection C0 as <-. rewrite E0. cbn. eauto. }
  assert (Hb : 0 < length b0) by (rewrite E0; cbn; lia). destruct (fill_loop_hd _ _ _ _ _ _ _ _ q t0 Hb A0 F) as (t1 & A1 & _).
  assert (Hi : 0 < z - length b2) by lia. destruct (copy_at_hd _ _ _ _ q t1 Hi A1 C2) as (t2 & A2 & _).
  unfold mirror in H. destruct (z <=? length a2); [|discriminate]. injection H as <-. rewrite A2.
  destruct z as [|z]; [lia|]. cbn [firstn rev]. rewrite map_app, app_assoc. cbn [map]. rewrite last_last. reflexivity.
Qed.
Lemma last_map {A B} (f : A -> B) l d d' : l <> [] -> last (map f l) d' = f (last l d).
Proof. induction l as [|a [|b l] IH]; intros H; [congruence|reflexivity|]. cbn [map]. change (last (map f (b :: l)) d' = f (last (b :: l) d)). apply IH. discriminate. Qed.
Lemma last_nonempty {A} (l : list A) d x : last l d = x -> x <> d -> l <> [].
Proof. intros H N ->. cbn in H. congruence. Qed.

Lemma scaled_last e l (q : Q * Q) : 0 < e -> l <> [] -> fst (last l no_point) = (ofnat e - fst q)%Q -> ((1#100) <= fst q)%Q -> last_ok e (scale e l).
Proof.
  intros He Hl E Hq. unfold last_ok, scale. rewrite (last_map _ l no_point no_point Hl). cbn [fst]. rewrite E.
  assert (P : (0 < ofnat e)%Q) by (unfold ofnat; change 0%Q with (inject_Z 0); rewrite <- Zlt_Qlt; lia).
  assert (I : (0 < / ofnat e)%Q) by (apply Qinv_lt_0_compat, P).
  assert (K : ((ofnat e - fst q) * / ofnat e == 1 - fst q * / ofnat e)%Q) by (field; intros Z; rewrite Z in P; discriminate).
  rewrite K. unfold Qminus. apply Qplus_le_r. apply Qopp_le_compat. apply Qmult_le_compat_r; [exact Hq|]. apply Qlt_le_weak, I.
Qed.
Lemma rule_last d e meth l : 1 <= e -> get_ggq d e meth = Some l -> 0 < length l -> last_ok e l.
Proof.
  intros He H Hl. unfold get_ggq in H. destruct (space_dimension d meth) as (p, r). set (m := ceil_half (num_dofs p r e)) in *.
  destruct (base_points d e meth) as [[|b0 [|b1 [|b2 [|? ?]]]]|] eqn:Eb; try discriminate.
  apply base_first in Eb. cbn [first_okb] in Eb. destruct b0 as [|q b0]; [discriminate|]. apply Qle_bool_iff in Eb.
  assert (Pre : match nth_error (precomputed_tables meth) (d - 2) with Some t => nth_error t (e - 1) | None => None end = Some l -> last_ok e l).
  { destruct (nth_error (precomputed_tables meth) (d - 2)) as [t|] eqn:Et; [|discriminate]. intros E. pose proof (tables_fine meth) as F. rewrite forallb_forall in F. apply nth_error_In in Et. apply F in Et.
    replace e with (1 + (e - 1)) by lia. apply (table_ok t); assumption. }
  assert (Con : forall b, length b < ceil_half m -> option_map (scale e) (construct m e (q :: b0) b1 b) = Some l -> last_ok e l).
  { intros b Hz E. destruct (construct m e (q :: b0) b1 b) as [l0|] eqn:C; [|discriminate]. cbn in E. injection E as <-.
    apply (scaled_last e l0 q); [exact He| |exact (construct_last m e (q :: b0) b1 b q b0 l0 eq_refl Hz C)|exact Eb]. intros ->. cbn in Hl. lia. }
  pose proof (ceil_half_bounds m) as B. cbn [length] in H.
  destruct (2 * m =? _).
  - destruct (Nat.ltb_spec (2 * S (length b0)) m); [apply (Con []); [cbn [length]; lia|exact H]|apply Pre, H].
  - destruct (Nat.ltb_spec (2 * (S (length b0) + length b2) - 1) m); [apply (Con b2); [lia|exact H]|apply Pre, H].
Qed.
Lemma sorted_last l q : StronglySorted (fun a b => (fst a < fst b)%Q) l -> In q l -> (fst q <= fst (last l no_point))%Q.
Proof.
  revert q. induction l as [|a l IH]; intros q S I; [contradiction|]. inversion S as [|? ? S' F]; subst. destruct l as [|b l].
  - destruct I as [<-|[]]. apply Qle_refl.
  - change (last (a :: b :: l) no_point) with (last (b :: l) no_point). destruct I as [<-|I]; [|apply IH; assumption].
    apply Qle_trans with (fst b); [apply Qlt_le_weak; rewrite Forall_forall in F; apply F; left; reflexivity|]. apply IH; [exact S'|left; reflexivity].
Qed.
(** Every point of every rule: not closer to 1 than a hundredth of a knot span. *)
Lemma all_points_low d e meth l : 2 <= d <= 4 -> 1 <= e -> get_ggq d e meth = Some l -> forall q, In q l -> (0 < fst q /\ fst q <= 1 - (1#100) * / ofnat e)%Q.
Proof.
  intros Hd He E q Hq. destruct (all_rules d e meth Hd He) as (l' & E' & R). rewrite E in E'. injection E' as <-.
  split; [destruct R as [_ _ Rr _ _ _]; rewrite Forall_forall in Rr; apply Rr, Hq|].
  apply Qle_trans with (fst (last l no_point)); [apply sorted_last; [apply R|exact Hq]|]. apply (rule_last d e meth l He E). destruct l; [contradiction|cbn; lia].
Qed.
