(** The threads of the flood fill: traces of the sequential model, locality of a partition, interleavings. *)
From Coq Require Import Arith List Bool ZArith Lia Permutation.
From Verif Require Import GridModel GridSpec GridProofs GridStoreModel GridGeoModel Geo FloodModel FloodSpec FloodSets FloodFillProofs FloodThreadsModel.
Import ListNotations.

Lemma marks_app st a b : marks st (a ++ b) = marks (marks st a) b. Proof. apply fold_left_app. Qed.
Lemma pushes_app a b : pushes (a ++ b) = pushes a ++ pushes b. Proof. induction a as [|[i v|gr] a IH]; cbn; [reflexivity|exact IH|rewrite IH; reflexivity]. Qed.

Section Threads.
Variable g : grid.
Variable T : nat -> bool.
Variable P : nat -> dir -> bool.
Variable V : nat -> nat -> dir -> bool.

(** ** The sequential model is the effect of the traces. *)
Definition whole (s : private) (st : nat -> istate) : fst_ := FS (p_visited s) st (p_group s).
Lemma move_trace p i d s st : move g T P V p i d (whole s st) = let '(r, s', e) := t_move g T P V p i d s in (r, whole s' (marks st e)).
Proof. unfold move, t_move. destruct (next_index g i d p) as [n [| |]]; try reflexivity. cbn. destruct (P n d); [reflexivity|]. destruct (p_visited s n); [reflexivity|]. destruct (T n); reflexivity. Qed.
Lemma moves_trace p i ds : forall s st, moves g T P V p i ds (whole s st) = let '(r, s', e) := t_moves g T P V p i ds s in (r, whole s' (marks st e)).
Proof.
  induction ds as [|d ds IH]; intros s st; [reflexivity|]. cbn [moves t_moves]. rewrite move_trace. destruct (t_move g T P V p i d s) as [[r s1] e1]. rewrite IH. destruct (t_moves g T P V p i ds s1) as [[rs s2] e2]. rewrite marks_app. reflexivity.
Qed.
Lemma loop_trace fuel : forall p stack s st, fill_loop g T P V fuel p stack (whole s st) = match t_loop g T P V fuel p stack s with Some (s', e) => Some (whole s' (marks st e)) | None => None end.
Proof.
  induction fuel as [|fuel IH]; intros p [|i stack] s st; try reflexivity. cbn [fill_loop t_loop]. rewrite moves_trace. destruct (t_moves g T P V p i directions s) as [[new s1] e1]. rewrite IH. destruct (t_loop g T P V fuel p (rev new ++ stack) s1) as [[s2 e2]|]; [|reflexivity]. rewrite marks_app. reflexivity.
Qed.
Lemma fill_trace p k i vis st : fill g T P V p k i vis st = match t_fill g T P V p k i vis with Some (s', e) => Some (whole s' (marks st e)) | None => None end.
Proof. unfold fill, t_fill. destruct (T i); [reflexivity|]. apply (loop_trace _ p [i] (Private (upd vis i true) (Group k [i] 0)) st). Qed.

(** Marks are always trimmed, and only cells of the partition are marked; a partition depends only on the marks in it. *)
Definition only_marks (q : nat -> Prop) (es : list event) : Prop := forall e, In e es -> exists i, e = Mark i Trimmed /\ q i.
Definition agree (p : part) (v1 v2 : nat -> bool) : Prop := forall j, inslab g p j -> v1 j = v2 j.
Definition same_outside (p : part) (v v' : nat -> bool) : Prop := forall j, ~ inslab g p j -> v' j = v j.
Lemma agree_upd p v1 v2 n : agree p v1 v2 -> agree p (upd v1 n true) (upd v2 n true). Proof. intros A j I. unfold upd. destruct (j =? n); [reflexivity|apply A, I]. Qed.
Lemma outside_upd p v n : inslab g p n -> same_outside p v (upd v n true). Proof. intros I j N. unfold upd. destruct (Nat.eqb_spec j n) as [->|]; [contradiction|reflexivity]. Qed.
Lemma outside_trans p a b c : same_outside p a b -> same_outside p b c -> same_outside p a c. Proof. intros H1 H2 j N. rewrite (H2 j N). apply H1, N. Qed.
Lemma only_app q a b : only_marks q a -> only_marks q b -> only_marks q (a ++ b). Proof. intros A B e I. apply in_app_or in I. destruct I; [apply A|apply B]; assumption. Qed.
Lemma only_nil q : only_marks q []. Proof. intros e []. Qed.
Lemma only_pushes q es : only_marks q es -> pushes es = []. Proof. induction es as [|e es IH]; intros H; [reflexivity|]. destruct (H e (or_introl eq_refl)) as (i & -> & _). cbn. apply IH. intros e I. apply H. right. exact I. Qed.

Hypothesis Hg : grid_ok g.
Section Part.
Variable p : part.
Hypothesis Hp : part_ok g p.

Lemma move_local i d v1 v2 gr r s1 e : inslab g p i -> agree p v1 v2 -> t_move g T P V p i d (Private v1 gr) = (r, s1, e) ->
  only_marks (inslab g p) e /\ (forall n, r = Some n -> inslab g p n) /\ same_outside p v1 (p_visited s1) /\
  exists s2, t_move g T P V p i d (Private v2 gr) = (r, s2, e) /\ p_group s2 = p_group s1 /\ agree p (p_visited s1) (p_visited s2).
Proof.
  intros I A E. unfold t_move in *. destruct (next_index g i d p) as [n f] eqn:N. pose proof (next_inslab g Hg p i d n f Hp I N) as In.
  assert (Same : forall s, (None : option nat, Private v1 gr, [] : list event) = (r, s, e) -> only_marks (inslab g p) e /\ (forall n, r = Some n -> inslab g p n) /\ same_outside p v1 (p_visited s) /\ exists s2, (None, Private v2 gr, []) = (r, s2, e) /\ p_group s2 = p_group s /\ agree p (p_visited s) (p_visited s2)).
  { intros s H. injection H as <- <- <-. split; [apply only_nil|]. split; [discriminate|]. split; [intros j _; reflexivity|]. exists (Private v2 gr). split; [reflexivity|]. split; [reflexivity|exact A]. }
  destruct f; [|exact (Same s1 E)|exact (Same s1 E)]. cbn [p_visited p_group] in *. destruct (P n d).
  - injection E as <- <- <-. split; [apply only_nil|]. split; [discriminate|]. split; [intros j _; reflexivity|]. eexists. split; [reflexivity|]. split; [reflexivity|exact A].
  - rewrite <- (A n In). destruct (v1 n); [exact (Same s1 E)|]. destruct (T n); injection E as <- <- <-.
    + split; [intros e [<-|[]]; exists n; split; [reflexivity|exact In]|]. split; [discriminate|]. split; [apply outside_upd, In|]. eexists. split; [reflexivity|]. split; [reflexivity|apply agree_upd, A].
    + split; [apply only_nil|]. split; [intros m H; injection H as <-; exact In|]. split; [apply outside_upd, In|]. eexists. split; [reflexivity|]. split; [reflexivity|apply agree_upd, A].
Qed.
Lemma moves_local i ds : inslab g p i -> forall v1 v2 gr r s1 e, agree p v1 v2 -> t_moves g T P V p i ds (Private v1 gr) = (r, s1, e) ->
  only_marks (inslab g p) e /\ (forall n, In n r -> inslab g p n) /\ same_outside p v1 (p_visited s1) /\
  exists s2, t_moves g T P V p i ds (Private v2 gr) = (r, s2, e) /\ p_group s2 = p_group s1 /\ agree p (p_visited s1) (p_visited s2).
Proof.
  intros I. induction ds as [|d ds IH]; intros v1 v2 gr r s1 e A E; cbn [t_moves] in *.
  - injection E as <- <- <-. split; [apply only_nil|]. split; [intros n []|]. split; [intros j _; reflexivity|]. exists (Private v2 gr). split; [reflexivity|]. split; [reflexivity|exact A].
  - destruct (t_move g T P V p i d (Private v1 gr)) as [[r1 [w1 g1]] e1] eqn:M. destruct (move_local _ _ _ _ _ _ _ _ I A M) as (O1 & R1 & K1 & [w2 g2] & -> & G & A1). cbn [p_visited p_group] in *. subst g2.
    destruct (t_moves g T P V p i ds (Private w1 g1)) as [[r2 s3] e2] eqn:M2. destruct (IH _ _ _ _ _ _ A1 M2) as (O2 & R2 & K2 & s4 & -> & G2 & A2). injection E as <- <- <-.
    split; [apply only_app; assumption|]. split. { intros n H. destruct r1 as [m|]; [destruct H as [<-|H]; [apply R1; reflexivity|apply R2, H]|apply R2, H]. }
    split; [exact (outside_trans _ _ _ _ K1 K2)|]. exists s4. split; [reflexivity|]. split; [exact G2|exact A2].
Qed.
Lemma loop_local fuel : forall stack v1 v2 gr, (forall i, In i stack -> inslab g p i) -> agree p v1 v2 ->
  match t_loop g T P V fuel p stack (Private v1 gr) with
  | Some (s1, e) => only_marks (inslab g p) e /\ same_outside p v1 (p_visited s1) /\
      exists s2, t_loop g T P V fuel p stack (Private v2 gr) = Some (s2, e) /\ p_group s2 = p_group s1 /\ agree p (p_visited s1) (p_visited s2)
  | None => t_loop g T P V fuel p stack (Private v2 gr) = None
  end.
Proof.
  assert (Z : forall v1 v2 gr, agree p v1 v2 -> only_marks (inslab g p) [] /\ same_outside p v1 v1 /\ exists s2, Some (Private v2 gr, [] : list event) = Some (s2, []) /\ p_group s2 = gr /\ agree p v1 (p_visited s2)).
  { intros v1 v2 gr A. split; [apply only_nil|]. split; [intros j _; reflexivity|]. exists (Private v2 gr). split; [reflexivity|]. split; [reflexivity|exact A]. }
  induction fuel as [|fuel IH]; intros [|i stack] v1 v2 gr S A; cbn [t_loop]; try (apply Z, A); [reflexivity|].
  destruct (t_moves g T P V p i directions (Private v1 gr)) as [[new [w1 g1]] e1] eqn:M. destruct (moves_local i directions (S i (or_introl eq_refl)) _ _ _ _ _ _ A M) as (O1 & R1 & K1 & [w2 g2] & -> & G & A1). cbn [p_visited p_group] in *. subst g2.
  assert (S' : forall j, In j (rev new ++ stack) -> inslab g p j) by (intros j H; apply in_app_or in H; destruct H as [H|H]; [apply R1, in_rev, H|apply S; right; exact H]). specialize (IH _ _ _ g1 S' A1).
  destruct (t_loop g T P V fuel p (rev new ++ stack) (Private w1 g1)) as [[s3 e2]|].
  - destruct IH as (O2 & K2 & s4 & -> & G2 & A2). split; [apply only_app; assumption|]. split; [exact (outside_trans _ _ _ _ K1 K2)|]. exists s4. split; [reflexivity|]. split; [exact G2|exact A2].
  - rewrite IH. reflexivity.
Qed.
Lemma fill_local k i v1 v2 : inslab g p i -> agree p v1 v2 ->
  match t_fill g T P V p k i v1 with
  | Some (s1, e) => only_marks (inslab g p) e /\ same_outside p v1 (p_visited s1) /\ exists s2, t_fill g T P V p k i v2 = Some (s2, e) /\ p_group s2 = p_group s1 /\ agree p (p_visited s1) (p_visited s2)
  | None => t_fill g T P V p k i v2 = None
  end.
Proof.
  intros I A. unfold t_fill. destruct (T i).
  - split; [intros e [<-|[]]; exists i; split; [reflexivity|exact I]|]. split; [apply outside_upd, I|]. eexists. split; [reflexivity|]. split; [reflexivity|apply agree_upd, A].
  - assert (S : forall j, In j [i] -> inslab g p j) by (intros j [<-|[]]; exact I). pose proof (loop_local (Datatypes.S (num_elements g)) [i] _ _ (Group k [i] 0) S (agree_upd p v1 v2 i A)) as L.
    destruct (t_loop g T P V (Datatypes.S (num_elements g)) p [i] (Private (upd v1 i true) (Group k [i] 0))) as [[s1 e]|]; [|exact L]. destruct L as (O & K & R). split; [exact O|]. split; [exact (outside_trans _ _ _ _ (outside_upd p v1 i I) K)|exact R].
Qed.
Definition marks_in (q : nat -> Prop) (es : list event) : Prop := forall i v, In (Mark i v) es -> v = Trimmed /\ q i.
Lemma only_in q es : only_marks q es -> marks_in q es. Proof. intros H i v I. destruct (H _ I) as (j & E & Q). injection E as -> ->. split; [reflexivity|exact Q]. Qed.
Lemma cells_local k cells : forall v1 v2, (forall i, In i cells -> inslab g p i) -> agree p v1 v2 ->
  match t_cells g T P V p k cells v1 with
  | Some (w1, e) => marks_in (inslab g p) e /\ same_outside p v1 w1 /\ exists w2, t_cells g T P V p k cells v2 = Some (w2, e) /\ agree p w1 w2
  | None => t_cells g T P V p k cells v2 = None
  end.
Proof.
  induction cells as [|i cells IH]; intros v1 v2 S A; cbn [t_cells].
  - split; [intros i v []|]. split; [intros j _; reflexivity|]. exists v2. split; [reflexivity|exact A].
  - assert (I : inslab g p i) by (apply S; left; reflexivity). assert (S' : forall j, In j cells -> inslab g p j) by (intros j H; apply S; right; exact H). rewrite <- (A i I). destruct (v1 i); [apply (IH v1 v2 S' A)|].
    pose proof (fill_local k i v1 v2 I A) as F. destruct (t_fill g T P V p k i v1) as [[s1 e1]|]; [|rewrite F; reflexivity]. destruct F as (O & K & s2 & -> & G & A1). rewrite G.
    specialize (IH _ _ S' A1). destruct (t_cells g T P V p k cells (p_visited s1)) as [[w1 e2]|]; [|rewrite IH; reflexivity]. destruct IH as (O2 & K2 & w2 & -> & A2).
    split. { intros j v H. apply in_app_or in H. destruct H as [H|H]; [exact (only_in _ _ O _ _ H)|]. apply in_app_or in H. destruct H as [H|H]; [|apply O2, H]. destruct (g_set (p_group s1)); [destruct H|destruct H as [H|[]]; discriminate H]. }
    split; [exact (outside_trans _ _ _ _ K K2)|]. exists w2. split; [reflexivity|exact A2].
Qed.
Lemma cells_trace k cells : (forall i, In i cells -> inslab g p i) -> forall vis st groups,
  fill_cells g T P V p k cells vis st groups = match t_cells g T P V p k cells vis with Some (_, e) => Some (marks st e, groups ++ pushes e) | None => None end.
Proof.
  induction cells as [|i cells IH]; intros S vis st groups; cbn [fill_cells t_cells]; [rewrite app_nil_r; reflexivity|]. assert (I : inslab g p i) by (apply S; left; reflexivity). assert (S' : forall j, In j cells -> inslab g p j) by (intros j H; apply S; right; exact H).
  destruct (vis i); [apply IH, S'|]. rewrite fill_trace. pose proof (fill_local k i vis vis I (fun _ _ => eq_refl)) as F. destruct (t_fill g T P V p k i vis) as [[s1 e1]|]; [|reflexivity]. destruct F as (O & _). cbn [whole fs_visited fs_states fs_group]. rewrite (IH S').
  destruct (t_cells g T P V p k cells (p_visited s1)) as [[w e2]|]; [|reflexivity]. rewrite !marks_app, !pushes_app, (only_pushes _ _ O). cbn [app]. destruct (g_set (p_group s1)); [reflexivity|]. cbn [marks fold_left pushes app]. rewrite <- app_assoc. reflexivity.
Qed.
End Part.

(** ** The accesses of one partition, and those of threads. *)
Variable ps : list part.
Hypothesis Hps : forall p, In p ps -> part_ok g p.
Hypothesis Hdis : forall k k' p p' j, nth_error ps k = Some p -> nth_error ps k' = Some p' -> inslab g p j -> inslab g p' j -> k = k'.
Definition accesses (k : nat) : list event :=
  match nth_error ps k with Some p => match t_cells g T P V p k (slab_cells g p) (fun _ => false) with Some (_, e) => e | None => [] end | None => [] end.
Lemma cells_of p i : part_ok g p -> In i (slab_cells g p) -> inslab g p i. Proof. intros H I. apply (in_slab_cells g Hg p i H), I. Qed.
Lemma slabs_trace : forall l k0 st groups r, (forall k p, nth_error l k = Some p -> nth_error ps (k0 + k) = Some p) -> fill_slabs g T P V k0 l st groups = Some r ->
  r = (marks st (concat (map accesses (seq k0 (length l)))), groups ++ pushes (concat (map accesses (seq k0 (length l))))) /\
  forall k p, nth_error l k = Some p -> exists w, t_cells g T P V p (k0 + k) (slab_cells g p) (fun _ => false) = Some (w, accesses (k0 + k)).
Proof.
  induction l as [|p l IH]; intros k0 st groups r N E; cbn [fill_slabs length seq map concat] in *. { injection E as <-. rewrite app_nil_r. split; [reflexivity|]. intros [|k] p H; discriminate H. }
  pose proof (N 0 p eq_refl) as N0. rewrite Nat.add_0_r in N0. pose proof (Hps p (nth_error_In _ _ N0)) as Hp. rewrite (cells_trace p Hp _ _ (fun i => cells_of p i Hp)) in E.
  destruct (t_cells g T P V p k0 (slab_cells g p) (fun _ => false)) as [[w e]|] eqn:C; [|discriminate E]. assert (Ac : accesses k0 = e) by (unfold accesses; rewrite N0, C; reflexivity). rewrite (Nat.add_1_r k0) in E.
  destruct (IH (S k0) _ _ r (fun k p' H => eq_trans (f_equal (nth_error ps) (Nat.add_succ_comm k0 k)) (N (S k) p' H)) E) as [R F]. rewrite Ac, R, marks_app, pushes_app, app_assoc. split; [reflexivity|].
  intros [|k] p' H; cbn in H. - injection H as <-. rewrite Nat.add_0_r, Ac. exists w. exact C. - rewrite <- Nat.add_succ_comm. apply F, H.
Qed.
Hypothesis Hall : forall k p, nth_error ps k = Some p -> exists w, t_cells g T P V p k (slab_cells g p) (fun _ => false) = Some (w, accesses k).
Lemma thread_trace ks : forall vis, NoDup ks -> (forall k, In k ks -> k < length ps) -> (forall k p j, In k ks -> nth_error ps k = Some p -> inslab g p j -> vis j = false) ->
  thread g T P V ps ks vis = Some (concat (map accesses ks)).
Proof.
  induction ks as [|k ks IH]; intros vis N L F; [reflexivity|]. cbn [thread map concat]. destruct (nth_error ps k) as [p|] eqn:E; [|apply nth_error_None in E; specialize (L k (or_introl eq_refl)); lia]. pose proof (Hps p (nth_error_In _ _ E)) as Hp.
  destruct (Hall k p E) as [w C]. pose proof (cells_local p Hp k (slab_cells g p) (fun _ => false) vis (fun i => cells_of p i Hp)) as K. rewrite C in K. destruct K as (_ & _ & w2 & C2 & _). { intros j I. symmetry. apply (F k p j (or_introl eq_refl) E I). }
  pose proof (cells_local p Hp k (slab_cells g p) vis vis (fun i => cells_of p i Hp) (fun _ _ => eq_refl)) as K. rewrite C2 in K. destruct K as (_ & O & _). rewrite C2. apply NoDup_cons_iff in N. destruct N as [Nk N]. rewrite (IH w2 N); [reflexivity|intros k' I; apply L; right; exact I|].
  intros k' p' j I E' J. rewrite O. - apply (F k' p' j (or_intror I) E' J). - intros J'. apply Nk. rewrite (Hdis k k' p p' j E E' J' J). exact I.
Qed.
Lemma all_trace work : NoDup (concat work) -> (forall k, In k (concat work) -> k < length ps) -> all_threads g T P V ps work = Some (map (fun ks => concat (map accesses ks)) work).
Proof.
  induction work as [|ks work IH]; intros N L; [reflexivity|]. cbn [all_threads map concat] in *. apply NoDup_app_iff in N. destruct N as (N1 & N2 & _). rewrite thread_trace; [|exact N1|intros k I; apply L, in_or_app; left; exact I|reflexivity]. rewrite IH; [reflexivity|exact N2|]. intros k I. apply L, in_or_app. right. exact I.
Qed.
Lemma accesses_in k i v : In (Mark i v) (accesses k) -> v = Trimmed /\ exists p, nth_error ps k = Some p /\ inslab g p i.
Proof.
  intros I. destruct (nth_error ps k) as [p|] eqn:E; [|unfold accesses in I; rewrite E in I; destruct I]. destruct (Hall k p E) as [w C]. pose proof (Hps p (nth_error_In _ _ E)) as Hp. pose proof (cells_local p Hp k (slab_cells g p) (fun _ => false) (fun _ => false) (fun i => cells_of p i Hp) (fun _ _ => eq_refl)) as K.
  rewrite C in K. destruct K as (M & _). destruct (M i v I) as [-> J]. split; [reflexivity|]. exists p. split; [reflexivity|exact J].
Qed.
End Threads.

(** ** Interleavings. *)
Lemma interleaving_permutation {E} (ts : list (list E)) es : interleaving ts es -> Permutation es (concat ts).
Proof.
  induction 1 as [ts H|a e t b es _ IH]. - replace (concat ts) with (@nil E); [constructor|]. symmetry. induction ts as [|t ts IH]; [reflexivity|]. cbn. rewrite (H t (or_introl eq_refl)). apply IH. intros u I. apply H. right. exact I.
  - rewrite concat_app in *. cbn [concat app] in *. apply Permutation_cons_app. exact IH.
Qed.
Lemma interleaving_sequential {E} (ts : list (list E)) : interleaving ts (concat ts).
Proof.
  assert (G : forall (ts done : list (list E)), (forall t, In t done -> t = []) -> interleaving (done ++ ts) (concat ts)).
  { clear. intros ts. induction ts as [|t ts IH]; intros done H; cbn [concat]. { rewrite app_nil_r. constructor. exact H. }
    induction t as [|e t IHt]; cbn [app]. - replace (done ++ [] :: ts) with ((done ++ [[]]) ++ ts) by (rewrite <- app_assoc; reflexivity). apply IH. intros u I. apply in_app_or in I. destruct I as [I|[<-|[]]]; [apply H, I|reflexivity]. - apply one_step. exact IHt. }
  apply (G ts []). intros t [].
Qed.
Lemma pushes_permutation a b : Permutation a b -> Permutation (pushes a) (pushes b).
Proof. induction 1 as [|[i v|gr] a b _ IH|[i v|gr] [j u|gs] a|a b c _ IH1 _ IH2]; cbn; try constructor; try assumption; try reflexivity. exact (Permutation_trans IH1 IH2). Qed.
Lemma marks_trimmed es : (forall i v, In (Mark i v) es -> v = Trimmed) -> forall st i, marks st es i = Trimmed /\ In (Mark i Trimmed) es \/ marks st es i = st i /\ ~ In (Mark i Trimmed) es.
Proof.
  induction es as [|e es IH]; intros H st i; [right; split; [reflexivity|intros []]|]. cbn [marks fold_left]. fold (marks (match e with Mark j v => upd st j v | Push _ => st end) es).
  destruct (IH (fun j v I => H j v (or_intror I)) (match e with Mark j v => upd st j v | Push _ => st end) i) as [[E I]|[E N]]; [left; split; [exact E|right; exact I]|]. change (fold_left _ es ?s) with (marks s es). rewrite E. destruct e as [j v|gr].
  - rewrite (H j v (or_introl eq_refl)). unfold upd. destruct (Nat.eqb_spec i j) as [->|Ne]. + left. split; [reflexivity|left; reflexivity]. + right. split; [reflexivity|]. intros [Q|I]; [congruence|exact (N I)].
  - right. split; [reflexivity|]. intros [Q|I]; [discriminate Q|exact (N I)].
Qed.
Lemma marks_permutation a b st i : (forall i v, In (Mark i v) a -> v = Trimmed) -> Permutation a b -> marks st a i = marks st b i.
Proof.
  intros H Q. assert (H' : forall j v, In (Mark j v) b -> v = Trimmed) by (intros j v I; apply (H j), (Permutation_in _ (Permutation_sym Q) I)).
  destruct (marks_trimmed a H st i) as [[-> I]|[-> N]], (marks_trimmed b H' st i) as [[-> I']|[-> N']]; try reflexivity; exfalso; [apply N', (Permutation_in _ Q I)|apply N, (Permutation_in _ (Permutation_sym Q) I')].
Qed.
