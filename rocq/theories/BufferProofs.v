(** Proofs about the buffered binary writer. *)
From Coq Require Import Ascii Bool NArith Arith List Lia.
From Verif Require Import BufferModel.
Import ListNotations.
Local Open Scope nat_scope.

(** *** Byte order *)

Lemma nth_error_ext {A} (l m : list A) : length l = length m -> (forall i, i < length l -> nth_error l i = nth_error m i) -> l = m.
Proof.
  revert m. induction l as [|x l IH]; intros [|y m] L H; try discriminate L; [reflexivity|].
  f_equal.
  - specialize (H 0). simpl in H. assert (E : Some x = Some y) by (apply H; lia). congruence.
  - apply IH; [simpl in L; lia|]. intros i I. apply (H (S i)). simpl. lia.
Qed.

Lemma upd_length i c b : length (upd i c b) = length b.
Proof. revert i. induction b as [|d b IH]; intros [|i]; simpl; auto. Qed.
Lemma upd_nth i c b j : nth_error (upd i c b) j = if (j =? i) && (i <? length b) then Some c else nth_error b j.
Proof.
  revert i j. induction b as [|d b IH]; intros i j.
  - simpl. destruct i; simpl; rewrite andb_false_r; reflexivity.
  - destruct i as [|i], j as [|j]; simpl; auto. rewrite IH. reflexivity.
Qed.
Lemma swap_length i j b : length (swap i j b) = length b.
Proof.
  unfold swap. destruct (nth_error b i); [|reflexivity]. destruct (nth_error b j); [|reflexivity].
  rewrite !upd_length. reflexivity.
Qed.
Lemma swap_nth i j b k : i < length b -> j < length b ->
  nth_error (swap i j b) k = if k =? j then nth_error b i else if k =? i then nth_error b j else nth_error b k.
Proof.
  intros I J. unfold swap.
  destruct (nth_error b i) as [x|] eqn:X; [|apply nth_error_None in X; lia].
  destruct (nth_error b j) as [y|] eqn:Y; [|apply nth_error_None in Y; lia].
  rewrite !upd_nth, upd_length. apply Nat.ltb_lt in I, J. rewrite I, J, !andb_true_r.
  destruct (k =? j); [reflexivity|]. destruct (k =? i); reflexivity.
Qed.

Lemma swap_loop_length n k : forall i b, length (swap_loop n i k b) = length b.
Proof. induction k as [|k IH]; intros i b; simpl; [reflexivity|]. rewrite IH, swap_length. reflexivity. Qed.

Lemma swap_loop_nth n k : forall i b j, length b = n -> 2 * (i + k) <= n -> j < n ->
  nth_error (swap_loop n i k b) j =
  if ((i <=? j) && (j <? i + k)) || ((i <=? n - 1 - j) && (n - 1 - j <? i + k)) then nth_error b (n - 1 - j) else nth_error b j.
Proof.
  induction k as [|k IH]; intros i b j L H J.
  - simpl. replace ((i <=? j) && (j <? i + 0)) with false. replace ((i <=? n - 1 - j) && (n - 1 - j <? i + 0)) with false.
    reflexivity.
    + symmetry. apply andb_false_iff. destruct (i <=? n - 1 - j) eqn:E; auto. right. apply Nat.leb_le in E. apply Nat.ltb_ge. lia.
    + symmetry. apply andb_false_iff. destruct (i <=? j) eqn:E; auto. right. apply Nat.leb_le in E. apply Nat.ltb_ge. lia.
  - cbn [swap_loop]. rewrite IH; [|rewrite swap_length; exact L|lia|exact J].
    rewrite !swap_nth by lia.
    destruct (Nat.eq_dec j i) as [-> | N1]; [|destruct (Nat.eq_dec j (n - 1 - i)) as [-> | N2]].
    + replace (((S i <=? i) && (i <? S i + k)) || ((S i <=? n - 1 - i) && (n - 1 - i <? S i + k))) with false.
      replace (((i <=? i) && (i <? i + S k)) || ((i <=? n - 1 - i) && (n - 1 - i <? i + S k))) with true.
      * replace (i =? n - 1 - i) with false by (symmetry; apply Nat.eqb_neq; lia). rewrite Nat.eqb_refl. reflexivity.
      * symmetry. apply orb_true_iff. left. apply andb_true_iff. split; [apply Nat.leb_le | apply Nat.ltb_lt]; lia.
      * symmetry. apply orb_false_iff. split; apply andb_false_iff; [left; apply Nat.leb_gt; lia | right; apply Nat.ltb_ge; lia].
    + replace (n - 1 - (n - 1 - i)) with i by lia.
      replace (((S i <=? n - 1 - i) && (n - 1 - i <? S i + k)) || ((S i <=? i) && (i <? S i + k))) with false.
      replace (((i <=? n - 1 - i) && (n - 1 - i <? i + S k)) || ((i <=? i) && (i <? i + S k))) with true.
      * rewrite Nat.eqb_refl. reflexivity.
      * symmetry. apply orb_true_iff. right. apply andb_true_iff. split; [apply Nat.leb_le | apply Nat.ltb_lt]; lia.
      * symmetry. apply orb_false_iff. split; apply andb_false_iff; [right; apply Nat.ltb_ge; lia | left; apply Nat.leb_gt; lia].
    + replace (((i <=? j) && (j <? i + S k)) || ((i <=? n - 1 - j) && (n - 1 - j <? i + S k)))
        with (((S i <=? j) && (j <? S i + k)) || ((S i <=? n - 1 - j) && (n - 1 - j <? S i + k))).
      * replace (n - 1 - j =? n - 1 - i) with false by (symmetry; apply Nat.eqb_neq; lia).
        replace (n - 1 - j =? i) with false by (symmetry; apply Nat.eqb_neq; lia).
        replace (j =? n - 1 - i) with false by (symmetry; apply Nat.eqb_neq; lia).
        replace (j =? i) with false by (symmetry; apply Nat.eqb_neq; lia). reflexivity.
      * apply eq_true_iff_eq. rewrite !orb_true_iff, !andb_true_iff, !Nat.leb_le, !Nat.ltb_lt. lia.
Qed.

Lemma rev_nth_error {A} (l : list A) i : i < length l -> nth_error (rev l) i = nth_error l (length l - 1 - i).
Proof.
  intros H. destruct l as [|d l]; [simpl in H; lia|].
  rewrite (nth_error_nth' (rev (d :: l)) d) by (rewrite rev_length; exact H).
  rewrite rev_nth by exact H. rewrite (nth_error_nth' (d :: l) d) by (simpl; lia).
  f_equal. f_equal. simpl. lia.
Qed.

Lemma div2_double n : 2 * Nat.div2 n <= n /\ n <= 2 * Nat.div2 n + 1.
Proof.
  induction n as [n IH] using (well_founded_induction lt_wf). destruct n as [|[|n]]; [simpl; lia | simpl; lia|].
  specialize (IH n). cbn [Nat.div2]. lia.
Qed.

Theorem swap_end_rev b : swap_end b = rev b.
Proof.
  unfold swap_end. set (n := length b). assert (D := div2_double n).
  apply nth_error_ext; [rewrite swap_loop_length, rev_length; reflexivity|].
  intros j J. rewrite swap_loop_length in J. fold n in J.
  rewrite swap_loop_nth by (try reflexivity; lia). rewrite rev_nth_error by exact J. fold n.
  match goal with |- (if ?c then _ else _) = _ => destruct c eqn:E end; [reflexivity|].
  apply orb_false_iff in E. destruct E as [E1 E2]. apply andb_false_iff in E1, E2.
  assert (j = n - 1 - j); [|congruence].
  destruct E1 as [E1|E1]; [apply Nat.leb_gt in E1; lia | apply Nat.ltb_ge in E1].
  destruct E2 as [E2|E2]; [apply Nat.leb_gt in E2; lia | apply Nat.ltb_ge in E2]. lia.
Qed.

Lemma bytes_le_length w n : length (bytes_le w n) = w.
Proof. revert n. induction w as [|w IH]; intros n; simpl; auto. Qed.

Lemma native_endian_ok host : native_endian host = host.
Proof. destruct host; vm_compute; reflexivity. Qed.

(** The bytes of a value in a given order. *)
Definition ordered (e : endian) (w : nat) (n : N) : bytes := in_memory e w n.

Lemma ordered_length e w n : length (ordered e w n) = w.
Proof. unfold ordered, in_memory. destruct e; [|rewrite rev_length]; apply bytes_le_length. Qed.

Lemma converted host e w n :
  (if endian_eqb (native_endian host) e then in_memory host w n else swap_end (in_memory host w n)) = ordered e w n.
Proof.
  rewrite native_endian_ok. unfold ordered, in_memory.
  destruct host, e; simpl; rewrite ?swap_end_rev; rewrite ?rev_involutive; reflexivity.
Qed.

Lemma bytes_le_nth w : forall n i, i < w ->
  nth_error (bytes_le w n) i = Some (ascii_of_N ((n / 256 ^ N.of_nat i) mod 256)).
Proof.
  induction w as [|w IH]; intros n i H; [lia|]. destruct i as [|i]; cbn [bytes_le nth_error].
  - rewrite N.pow_0_r, N.div_1_r. reflexivity.
  - rewrite IH by lia. rewrite N.div_div by (try apply N.pow_nonzero; discriminate).
    rewrite Nnat.Nat2N.inj_succ, N.pow_succ_r'. reflexivity.
Qed.

Lemma value_bytes_le w : forall n, (n < 256 ^ N.of_nat w)%N -> value_le (bytes_le w n) = n.
Proof.
  induction w as [|w IH]; intros n H.
  - simpl in H. simpl. change (256 ^ N.of_nat 0)%N with 1%N in H. lia.
  - rewrite Nnat.Nat2N.inj_succ, N.pow_succ_r' in H. cbn [bytes_le value_le].
    rewrite IH by (apply N.div_lt_upper_bound; lia).
    rewrite N_ascii_embedding by (apply N.mod_lt; discriminate).
    rewrite N.add_comm. symmetry. apply N.div_mod. discriminate.
Qed.
Lemma from_in_memory host w n : (n < 256 ^ N.of_nat w)%N -> from_memory host (in_memory host w n) = n.
Proof.
  intros H. unfold from_memory, in_memory. destruct host; [|rewrite rev_involutive]; apply value_bytes_le, H.
Qed.

(** *** The writer *)

Definition op_bytes (e : endian) (o : op) : bytes :=
  match o with
  | Raw data => data
  | Value n x => ordered e n x
  | Array n l => concat (map (ordered e n) l)
  | Flush => []
  end.
Definition written (e : endian) (l : list op) : bytes := concat (map (op_bytes e) l).

(** What has been written so far: the file and the filled part of the buffer. *)
Definition content (w : writer) : bytes := f_bytes (w_stream w) ++ firstn (N.to_nat (w_pos w)) (w_buf w).
Definition ok_writer (e : endian) (size : N) (w : writer) : Prop :=
  len (w_buf w) = size /\ (w_pos w <= size)%N /\ f_good (w_stream w) = true /\ w_endian w = e.
Definition prefix (a b : bytes) : Prop := exists c, b = a ++ c.

Section Writer.
Variable disk : medium.
Variable e : endian.
Variable size : N.
Hypothesis small : (size < 2 ^ 63)%N.

(** The outcome of an operation that appends [data]. *)
Definition appends (w : writer) (data : bytes) (o : outcome) : Prop :=
  match o with
  | Done w' => ok_writer e size w' /\ content w' = content w ++ data /\ prefix (f_bytes (w_stream w)) (f_bytes (w_stream w'))
  | Thrown w' => f_good (w_stream w') = false /\ prefix (f_bytes (w_stream w')) (content w ++ data) /\ prefix (f_bytes (w_stream w)) (f_bytes (w_stream w'))
  | Overrun => False
  end.

Lemma prefix_refl a : prefix a a. Proof. exists []. rewrite app_nil_r. reflexivity. Qed.
Lemma prefix_trans a b c : prefix a b -> prefix b c -> prefix a c.
Proof. intros [x ->] [y ->]. exists (x ++ y). rewrite app_assoc. reflexivity. Qed.
Lemma prefix_app a b : prefix a (a ++ b). Proof. exists b. reflexivity. Qed.

Lemma write_cases f data : f_good f = true ->
  (stream_write disk f data = {| f_bytes := f_bytes f ++ data; f_good := true |}) \/
  (f_good (stream_write disk f data) = false /\ exists a b, data = a ++ b /\ f_bytes (stream_write disk f data) = f_bytes f ++ a).
Proof.
  intros G. unfold stream_write. rewrite G. destruct (disk (f_bytes f) data) as [k|]; [right|left; reflexivity].
  split; [reflexivity|]. exists (firstn k data), (skipn k data). split; [symmetry; apply firstn_skipn | reflexivity].
Qed.

Lemma flush_ok w : ok_writer e size w -> appends w [] (flush disk w) /\
  forall w', flush disk w = Done w' -> w_pos w' = 0%N /\ f_bytes (w_stream w') = content w.
Proof.
  intros [L [P [G E]]]. unfold flush. destruct (0 <? w_pos w)%N eqn:Z.
  - destruct (write_cases (w_stream w) (firstn (N.to_nat (w_pos w)) (w_buf w)) G) as [W|[W [a [b [D W2]]]]].
    + rewrite W. cbn [f_good]. unfold appends, content. cbn [w_stream w_pos w_buf f_bytes]. change (N.to_nat 0) with 0.
      cbn [firstn]. rewrite !app_nil_r. split.
      * split; [repeat split; try assumption; cbn [w_pos]; lia|]. split; [reflexivity | apply prefix_app].
      * intros w' H. inversion H. auto.
    + rewrite W. split; [|discriminate]. unfold appends, content. cbn [w_stream]. rewrite W2, app_nil_r.
      split; [exact W|]. split; [exists b; rewrite D, app_assoc; reflexivity | apply prefix_app].
  - assert (Z0 : w_pos w = 0%N) by (apply N.ltb_ge in Z; lia). split.
    + unfold appends. rewrite app_nil_r. split; [repeat split; assumption|]. split; [reflexivity | apply prefix_refl].
    + intros w' H. inversion H; subst. split; [exact Z0|]. unfold content. rewrite Z0. change (N.to_nat 0) with 0.
      cbn [firstn]. rewrite app_nil_r. reflexivity.
Qed.

Lemma firstn_memcpy (buf data : bytes) (p : nat) : p + length data <= length buf ->
  firstn (p + length data) (firstn p buf ++ data ++ skipn (p + length data) buf) = firstn p buf ++ data.
Proof.
  intros H. assert (L : length (firstn p buf) = p) by (rewrite firstn_length; lia).
  rewrite app_assoc. rewrite firstn_app. rewrite app_length, L.
  replace (p + length data - (p + length data)) with 0 by lia. cbn [firstn]. rewrite app_nil_r.
  rewrite firstn_all2; [reflexivity|]. rewrite app_length, L. lia.
Qed.

Lemma memcpy_ok w data : ok_writer e size w -> (w_pos w + len data <= size)%N ->
  appends w data (match memcpy (w_buf w) (w_pos w) data with
    | None => Overrun
    | Some b => Done {| w_stream := w_stream w; w_endian := w_endian w; w_pos := wrap (w_pos w + len data); w_buf := b |}
    end).
Proof.
  intros [L [P [G E]]] H. unfold memcpy. rewrite L. apply N.leb_le in H. rewrite H. apply N.leb_le in H.
  assert (W : wrap (w_pos w + len data) = (w_pos w + len data)%N).
  { unfold wrap. apply N.mod_small. change (2 ^ 63)%N with 9223372036854775808%N in small.
    change (2 ^ 64)%N with 18446744073709551616%N. lia. }
  rewrite W. unfold appends, content. cbn [w_stream w_pos w_buf].
  assert (T : N.to_nat (w_pos w + len data) = N.to_nat (w_pos w) + length data) by (unfold len; lia).
  assert (T' : N.to_nat (w_pos w) + length data <= length (w_buf w)) by (unfold len in *; lia).
  split; [|split; [|apply prefix_refl]].
  - repeat split; try assumption. unfold len in *. cbn [w_buf].
    rewrite !app_length, firstn_length, skipn_length. lia.
  - rewrite T, firstn_memcpy by exact T'. rewrite app_assoc. reflexivity.
Qed.

Lemma appends_then w d1 d2 o k : appends w d1 o -> (forall w', o = Done w' -> appends w' d2 (k w')) ->
  appends w (d1 ++ d2) (andthen o k).
Proof.
  intros A H. destruct o as [w'|w'|]; [|..]; cbn [andthen].
  - destruct A as [O [C P]]. specialize (H w' eq_refl). destruct (k w') as [w2|w2|]; unfold appends in *.
    + destruct H as [O2 [C2 P2]]. split; [exact O2|]. split; [rewrite C2, C, app_assoc; reflexivity | eapply prefix_trans; eauto].
    + destruct H as [G2 [C2 P2]]. split; [exact G2|]. split; [rewrite C, <- app_assoc in C2; exact C2 | eapply prefix_trans; eauto].
    + exact H.
  - destruct A as [G [C P]]. unfold appends. split; [exact G|]. split; [|exact P].
    eapply prefix_trans; [exact C|]. rewrite app_assoc. apply prefix_app.
  - exact A.
Qed.

Lemma append_ok w data : ok_writer e size w -> appends w data (append_to_buffer disk w data).
Proof.
  intros O. unfold append_to_buffer. destruct (flush_ok w O) as [F Z]. destruct O as [L [P [G E]]]. rewrite L.
  destruct (size <? len data)%N eqn:B.
  - change data with ([] ++ data) at 1. apply appends_then; [exact F|]. intros w' D. rewrite D in F. destruct F as [[L' [P' [G' E']]] _].
    destruct (Z w' D) as [Z0 _].
    assert (C : content w' = f_bytes (w_stream w')).
    { unfold content. rewrite Z0. change (N.to_nat 0) with 0. cbn [firstn]. rewrite app_nil_r. reflexivity. }
    destruct (write_cases (w_stream w') data G') as [W|[W [a [b [Ed W2]]]]].
    + rewrite W. cbn [f_good]. unfold appends. rewrite C. unfold content. cbn [w_stream w_pos w_buf f_bytes].
      rewrite Z0. change (N.to_nat 0) with 0. cbn [firstn]. rewrite app_nil_r.
      split; [repeat split; try assumption; cbn [w_pos]; lia|]. split; [reflexivity | apply prefix_app].
    + rewrite W. unfold appends. rewrite C. cbn [w_stream]. rewrite W2.
      split; [exact W|]. split; [exists b; rewrite Ed at 1; rewrite app_assoc; reflexivity | apply prefix_app].
  - apply N.ltb_ge in B. change data with ([] ++ data) at 1.
    change (2 ^ 63)%N with 9223372036854775808%N in small.
    destruct (size <? wrap (w_pos w + len data))%N eqn:Q.
    + apply appends_then; [exact F|]. intros w' D. rewrite D in F. destruct F as [O' _]. destruct (Z w' D) as [Z0 _].
      apply memcpy_ok; [exact O' | rewrite Z0; lia].
    + apply appends_then.
      * unfold appends. rewrite app_nil_r. split; [repeat split; assumption|]. split; [reflexivity | apply prefix_refl].
      * intros w' D. injection D as <-. apply memcpy_ok; [repeat split; assumption|]. apply N.ltb_ge in Q.
        unfold wrap in Q. change (2 ^ 64)%N with 18446744073709551616%N in Q.
        rewrite N.mod_small in Q by lia. exact Q.
Qed.

Variable host : endian.

Lemma value_ok w n x : ok_writer e size w -> appends w (ordered e n x) (write_value disk host w (n, x)).
Proof.
  intros O. unfold write_value. assert (E : w_endian w = e) by apply O. rewrite E, converted. apply append_ok, O.
Qed.
Lemma array_ok l : forall w n, ok_writer e size w -> appends w (concat (map (ordered e n) l)) (write_array disk host w n l).
Proof.
  induction l as [|x l IH]; intros w n O; cbn [write_array map concat].
  - unfold appends. rewrite app_nil_r. split; [exact O|]. split; [reflexivity | apply prefix_refl].
  - apply appends_then; [apply value_ok, O|]. intros w' D. apply IH.
    assert (V := value_ok w n x O). rewrite D in V. apply V.
Qed.
Lemma op_ok w o : ok_writer e size w -> appends w (op_bytes e o) (do_op disk host w o).
Proof.
  intros O. destruct o as [data|n x|n l|]; cbn [do_op op_bytes].
  - apply append_ok, O.
  - apply value_ok, O.
  - apply array_ok, O.
  - apply flush_ok, O.
Qed.
Lemma ops_ok l : forall w, ok_writer e size w -> appends w (written e l) (do_ops disk host w l).
Proof.
  unfold written. induction l as [|o l IH]; intros w O; cbn [do_ops map concat].
  - unfold appends. rewrite app_nil_r. split; [exact O|]. split; [reflexivity | apply prefix_refl].
  - apply appends_then; [apply op_ok, O|]. intros w' D. apply IH.
    assert (V := op_ok w o O). rewrite D in V. apply V.
Qed.

Lemma new_ok f : f_good f = true -> ok_writer e size (new_writer f e size) /\ content (new_writer f e size) = f_bytes f.
Proof.
  intros G. unfold new_writer, content. cbn [w_stream w_pos w_buf]. change (N.to_nat 0) with 0. cbn [firstn]. rewrite app_nil_r.
  split; [|reflexivity]. split; [unfold len; cbn [w_buf]; rewrite repeat_length; lia|]. cbn [w_pos]. split; [lia|]. split; [exact G | reflexivity].
Qed.

Lemma bad_write f data : f_good f = false -> stream_write disk f data = f.
Proof. intros G. unfold stream_write. rewrite G. reflexivity. Qed.
Lemma bad_flush w k : f_good (w_stream w) = false -> k = Normal \/ k = Exception ->
  destruct_writer disk w k = if (0 <? w_pos w)%N then Terminated (w_stream w) else k (w_stream w).
Proof.
  intros G _. unfold destruct_writer, flush. destruct (0 <? w_pos w)%N; [|reflexivity].
  rewrite bad_write by exact G. rewrite G. reflexivity.
Qed.

Theorem scope_ok f l : f_good f = true ->
  match scope disk host e size f l with
  | Normal f' => f_good f' = true /\ f_bytes f' = f_bytes f ++ written e l
  | Exception f' | Terminated f' => f_good f' = false /\ prefix (f_bytes f) (f_bytes f') /\ prefix (f_bytes f') (f_bytes f ++ written e l)
  | BufferOverrun => False
  end.
Proof.
  intros G. destruct (new_ok f G) as [O C]. assert (A := ops_ok l _ O). unfold scope.
  destruct (do_ops disk host (new_writer f e size) l) as [w|w|]; unfold appends in A; rewrite ?C in A.
  - destruct A as [Ow [Cw Pw]]. destruct (flush_ok w Ow) as [F Z]. unfold destruct_writer.
    destruct (flush disk w) as [w'|w'|]; cbn [appends] in F.
    + destruct F as [O' _]. destruct (Z w' eq_refl) as [_ Z1]. split; [apply O' | rewrite Z1, Cw; reflexivity].
    + rewrite app_nil_r, Cw in F. destruct F as [F1 [F2 F3]]. split; [exact F1|]. split; [eapply prefix_trans; eauto | exact F2].
    + exact F.
  - destruct A as [Gw [Pw Pw2]]. rewrite bad_flush by auto. cbn [new_writer w_stream] in Pw2. destruct (0 <? w_pos w)%N; auto.
  - exact A.
Qed.

Lemma flush_done w : (forall a b, disk a b = None) -> ok_writer e size w -> exists w', flush disk w = Done w'.
Proof.
  intros N O. unfold flush. destruct (0 <? w_pos w)%N; [|eauto]. unfold stream_write.
  destruct O as [_ [_ [G _]]]. rewrite G, N. cbn [f_good]. eauto.
Qed.
Lemma append_done w data : (forall a b, disk a b = None) -> ok_writer e size w -> exists w', append_to_buffer disk w data = Done w'.
Proof.
  intros N O. assert (A := append_ok w data O). destruct (flush_done w N O) as [w' F].
  assert (F' := proj1 (flush_ok w O)). rewrite F in F'.
  unfold append_to_buffer in *. destruct (len (w_buf w) <? len data)%N.
  - rewrite F in *. cbn [andthen] in *. unfold stream_write in *. destruct F' as [[_ [_ [G _]]] _]. rewrite G, N in *. cbn [f_good]. eauto.
  - destruct (len (w_buf w) <? wrap (w_pos w + len data))%N; [rewrite F in *|]; cbn [andthen] in *;
    match goal with |- exists _, match ?m with _ => _ end = _ => destruct m; [eauto | destruct A] end.
Qed.
Lemma array_done l : (forall a b, disk a b = None) -> forall w n, ok_writer e size w -> exists w', write_array disk host w n l = Done w'.
Proof.
  intros N. induction l as [|x l IH]; intros w n O; cbn [write_array]; [eauto|].
  assert (A := value_ok w n x O). unfold write_value in *.
  destruct (append_done w (if endian_eqb (native_endian host) (w_endian w) then in_memory host n x else swap_end (in_memory host n x)) N O) as [w' E].
  rewrite E in *. cbn [andthen]. apply IH, A.
Qed.
Lemma op_done w o : (forall a b, disk a b = None) -> ok_writer e size w -> exists w', do_op disk host w o = Done w'.
Proof.
  intros N O. destruct o; cbn [do_op].
  - apply append_done; assumption.
  - apply append_done; assumption.
  - apply array_done; assumption.
  - apply flush_done; assumption.
Qed.
Lemma ops_done l : (forall a b, disk a b = None) -> forall w, ok_writer e size w -> exists w', do_ops disk host w l = Done w'.
Proof.
  intros N. induction l as [|o l IH]; intros w O; cbn [do_ops]; [eauto|].
  assert (A := op_ok w o O). destruct (op_done w o N O) as [w' E]. rewrite E in *. cbn [andthen]. apply IH, A.
Qed.
Theorem scope_done f l : (forall a b, disk a b = None) -> f_good f = true ->
  scope disk host e size f l = Normal {| f_bytes := f_bytes f ++ written e l; f_good := true |}.
Proof.
  intros N G. assert (S := scope_ok f l G). destruct (new_ok f G) as [O _]. unfold scope in *.
  destruct (ops_done l N _ O) as [w E]. assert (A := ops_ok l _ O). rewrite E in *. destruct A as [Ow _].
  destruct (flush_done w N Ow) as [w' F]. unfold destruct_writer in *. rewrite F in *.
  destruct S as [S1 S2]. f_equal. destruct (w_stream w') as [b g]. cbn [f_good f_bytes] in *. congruence.
Qed.
End Writer.
