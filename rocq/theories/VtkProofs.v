(** Proofs about the VTK files. *)
From Coq Require Import String Ascii Bool NArith Arith List Lia Nnat.
From Verif Require Import KeysModel JsonModel JsonSpec JsonProofs BufferModel BufferProofs MeshModel MeshProofs StlModel StlProofs VtkModel VtkSpec.
Import ListNotations.
Local Open Scope nat_scope.

(** *** Writing *)
Section Bad.
Variable disk : medium.
Variable host e : endian.
Variable size : N.
Hypothesis small : (size < 2 ^ 63)%N.
Variable f : stream.
Hypothesis bad : f_good f = false.
Definition bad_inv (w : writer) : Prop := w_stream w = f /\ len (w_buf w) = size /\ (w_pos w <= size)%N.
Definition stays (o : outcome) : Prop := match o with Done w => bad_inv w | Thrown w => w_stream w = f | Overrun => False end.
Lemma stays_then o k : stays o -> (forall w, o = Done w -> bad_inv w -> stays (k w)) -> stays (andthen o k).
Proof. destruct o; cbn; auto. Qed.
Lemma bad_flush' w : bad_inv w -> stays (flush disk w) /\ forall w', flush disk w = Done w' -> w_pos w' = 0%N.
Proof.
  intros (S & L & P). unfold flush. destruct (0 <? w_pos w)%N eqn:Z.
  - rewrite S, bad_write by exact bad. rewrite bad. split; [reflexivity | discriminate].
  - split; [split; auto | ]. intros w' E. injection E as <-. apply N.ltb_ge in Z. lia.
Qed.
Lemma bad_memcpy w data : bad_inv w -> (w_pos w + len data <= size)%N ->
  stays (match memcpy (w_buf w) (w_pos w) data with
    | None => Overrun
    | Some b => Done {| w_stream := w_stream w; w_endian := w_endian w; w_pos := wrap (w_pos w + len data); w_buf := b |}
    end).
Proof.
  intros (S & L & P) H. unfold memcpy. rewrite L. apply N.leb_le in H. rewrite H. apply N.leb_le in H.
  assert (W : wrap (w_pos w + len data) = (w_pos w + len data)%N).
  { unfold wrap. apply N.mod_small. change (2 ^ 63)%N with 9223372036854775808%N in small.
    change (2 ^ 64)%N with 18446744073709551616%N. lia. }
  rewrite W. cbn [stays]. split; [exact S | ]. cbn [w_buf w_pos]. split; [ | exact H].
  unfold len in *. rewrite !app_length, firstn_length, skipn_length. lia.
Qed.
Lemma bad_append w data : bad_inv w -> stays (append_to_buffer disk w data).
Proof.
  intros I. pose proof I as (S & L & P). destruct (bad_flush' w I) as [F Z]. unfold append_to_buffer. rewrite L.
  change (2 ^ 63)%N with 9223372036854775808%N in small.
  destruct (size <? len data)%N eqn:B.
  - apply stays_then; [exact F | ]. intros w' _ (S' & _ & _). rewrite S', bad_write by exact bad. rewrite bad. reflexivity.
  - apply N.ltb_ge in B. destruct (size <? wrap (w_pos w + len data))%N eqn:Q.
    + apply stays_then; [exact F | ]. intros w' D I'. apply bad_memcpy; [exact I' | ]. rewrite (Z w' D). lia.
    + cbn [andthen]. apply bad_memcpy; [exact I | ]. apply N.ltb_ge in Q. unfold wrap in Q. change (2 ^ 64)%N with 18446744073709551616%N in Q.
      rewrite N.mod_small in Q by lia. exact Q.
Qed.
Lemma bad_ops l : forall w, bad_inv w -> stays (do_ops disk host w l).
Proof.
  induction l as [ | o l IH]; intros w I; cbn [do_ops]; [exact I | ]. apply stays_then; [ | intros w' _ I'; apply IH, I'].
  assert (V : forall w n x, bad_inv w -> stays (write_value disk host w (n, x))) by (intros; unfold write_value; apply bad_append; assumption).
  destruct o as [data | n x | n l0 | ]; cbn [do_op]; [apply bad_append, I | apply V, I | | apply bad_flush', I].
  revert w I. induction l0 as [ | x l0 IHl]; intros w I; cbn [write_array]; [exact I | ]. apply stays_then; [apply V, I | intros w' _ I'; apply IHl, I'].
Qed.
Lemma bad_scope l : match scope disk host e size f l with Normal f' | Exception f' | Terminated f' => f' = f | BufferOverrun => False end.
Proof.
  unfold scope. assert (I : bad_inv (new_writer f e size)).
  { unfold bad_inv, new_writer, len. cbn [w_stream w_buf w_pos]. rewrite repeat_length. split; [reflexivity | ]. split; lia. }
  pose proof (bad_ops l _ I) as S. destruct (do_ops disk host (new_writer f e size) l) as [w | w | ]; cbn [stays] in S; [ | | exact S].
  - destruct (bad_flush' w S) as [F _]. unfold destruct_writer. destruct (flush disk w); cbn [stays] in F; [apply F | exact F | exact F].
  - rewrite bad_flush by (rewrite ?S; auto). rewrite S. destruct (0 <? w_pos w)%N; reflexivity.
Qed.
End Bad.

Definition step_bytes (s : step) : bytes := match s with Put l => concat l | Block l => written big l end.
Definition all_bytes (steps : list step) : bytes := concat (map step_bytes steps).
Lemma bad_put disk f l : f_good f = false -> put_all disk f l = f.
Proof. intros B. induction l as [ | t l IH]; cbn; [reflexivity | ]. rewrite bad_write by exact B. exact IH. Qed.
Lemma bad_run disk host size steps f : (size < 2 ^ 63)%N -> f_good f = false ->
  match run disk host size steps f with Saved _ | SaveUndefined => False | SaveError b | SaveTerminated b => b = f_bytes f end.
Proof.
  intros S B. induction steps as [ | [l | l] steps IH]; cbn [run].
  - unfold finish. rewrite B. reflexivity.
  - rewrite bad_put by exact B. exact IH.
  - pose proof (bad_scope disk host big size S f B l) as K. destruct (scope _ _ _ _ _ _); subst; auto.
Qed.
Lemma put_cases disk l : forall f, f_good f = true ->
  put_all disk f l = {| f_bytes := f_bytes f ++ concat l; f_good := true |} \/
  (f_good (put_all disk f l) = false /\ prefix (f_bytes (put_all disk f l)) (f_bytes f ++ concat l)).
Proof.
  induction l as [ | t l IH]; intros f G; cbn [put_all fold_left concat].
  - left. rewrite app_nil_r. destruct f; cbn in *; subst; reflexivity.
  - fold (put_all disk (stream_write disk f t) l). destruct (write_cases disk f t G) as [W | [W [a [b [D W2]]]]].
    + rewrite W. destruct (IH {| f_bytes := f_bytes f ++ t; f_good := true |} eq_refl) as [E | [E P]]; cbn [f_bytes] in *; rewrite <- app_assoc in *; auto.
    + right. rewrite bad_put by exact W. split; [exact W | ]. rewrite W2, D. exists (b ++ concat l). rewrite <- !app_assoc. reflexivity.
Qed.
(** What is in the file after each outcome. *)
Lemma run_ok disk host size steps : (size < 2 ^ 63)%N -> forall f, f_good f = true ->
  match run disk host size steps f with
  | Saved b => b = f_bytes f ++ all_bytes steps
  | SaveError b | SaveTerminated b => prefix b (f_bytes f ++ all_bytes steps)
  | SaveUndefined => False
  end.
Proof.
  intros S. induction steps as [ | s steps IH]; intros f G.
  - cbn [run]. unfold finish, all_bytes. rewrite G. cbn. rewrite app_nil_r. reflexivity.
  - unfold all_bytes. cbn [map concat]. fold (all_bytes steps). destruct s as [l | l]; cbn [run step_bytes].
    + destruct (put_cases disk l f G) as [E | [E P]].
      * rewrite E. specialize (IH {| f_bytes := f_bytes f ++ concat l; f_good := true |} eq_refl). cbn [f_bytes] in IH. rewrite <- app_assoc in IH. exact IH.
      * pose proof (bad_run disk host size steps _ S E) as B. destruct (run _ _ _ _ _); try contradiction; subst;
          (eapply prefix_trans; [exact P | ]; rewrite app_assoc; apply prefix_app).
    + pose proof (scope_ok disk big size S host f l G) as K. destruct (scope disk host big size f l) as [f' | f' | f' | ].
      * destruct K as [G' E]. specialize (IH f' G'). rewrite E, <- app_assoc in IH. exact IH.
      * destruct K as [_ [_ P]]. eapply prefix_trans; [exact P | ]. rewrite app_assoc. apply prefix_app.
      * destruct K as [_ [_ P]]. eapply prefix_trans; [exact P | ]. rewrite app_assoc. apply prefix_app.
      * exact K.
Qed.
Lemma run_done disk host size steps : (size < 2 ^ 63)%N -> (forall a b, disk a b = None) -> forall f, f_good f = true ->
  run disk host size steps f = Saved (f_bytes f ++ all_bytes steps).
Proof.
  intros S K. induction steps as [ | s steps IH]; intros f G; cbn [run].
  - unfold finish, all_bytes. rewrite G. cbn. rewrite app_nil_r. reflexivity.
  - unfold all_bytes. cbn [map concat]. fold (all_bytes steps). destruct s as [l | l]; cbn [run step_bytes].
    + rewrite put_all_ok by assumption. rewrite IH by reflexivity. cbn [f_bytes]. rewrite <- app_assoc. reflexivity.
    + rewrite (scope_done disk big size S host f l K G). rewrite IH by reflexivity. cbn [f_bytes]. rewrite <- app_assoc. reflexivity.
Qed.

(** *** Reading words *)
Definition plain_word (t : list ascii) : Prop := t <> [] /\ forallb (fun c => negb (blank c)) t = true.
(** What may follow a word. *)
Definition ends (b : list ascii) : Prop := match b with [] => True | c :: _ => blank c = true end.
Lemma take_word_app t r : forallb (fun c => negb (blank c)) t = true -> ends r -> take_word (t ++ r) = (t, r).
Proof.
  intros H E. induction t as [ | c t IH]; cbn [app take_word].
  - destruct r as [ | c r]; cbn in *; [reflexivity | rewrite E; reflexivity].
  - cbn [forallb] in H. apply andb_true_iff in H as [H1 H2]. apply negb_true_iff in H1. rewrite H1, IH by exact H2. reflexivity.
Qed.
Lemma skip_blank_word t r : plain_word t -> skip_blank (t ++ r) = t ++ r.
Proof.
  intros [N H]. destruct t as [ | c t]; [contradiction | ]. cbn [forallb] in H. apply andb_true_iff in H as [H1 _]. apply negb_true_iff in H1.
  cbn [app skip_blank]. rewrite H1. reflexivity.
Qed.
Lemma skip_blanks s b : forallb blank s = true -> skip_blank (s ++ b) = skip_blank b.
Proof.
  induction s as [ | c s IH]; cbn [forallb app skip_blank]; [reflexivity | ]. intros H. apply andb_true_iff in H as [-> H]. apply IH, H.
Qed.
Lemma next_word_app s t r : forallb blank s = true -> plain_word t -> ends r -> next_word (s ++ t ++ r) = Some (t, r).
Proof.
  intros S P E. unfold next_word. rewrite skip_blanks by exact S. rewrite skip_blank_word by exact P.
  rewrite take_word_app by (apply P || exact E). destruct t; [destruct P as [N _]; contradiction | reflexivity].
Qed.
Lemma take_line_app l r : ~ In "010"%char l -> take_line (l ++ "010"%char :: r) = Some (l, r).
Proof.
  induction l as [ | c l IH]; intros N; cbn [app take_line]; [reflexivity | ].
  destruct (Ascii.eqb_spec c "010") as [-> | H]; [exfalso; apply N; left; reflexivity | ].
  rewrite IH; [reflexivity | ]. intros I. apply N. right. exact I.
Qed.
Lemma plain_no_newline t : forallb (fun c => negb (blank c)) t = true -> ~ In "010"%char t.
Proof. intros H I. rewrite forallb_forall in H. specialize (H _ I). discriminate H. Qed.

(** Numbers. *)
Fixpoint uint_acc (acc : N) (d : Decimal.uint) : N :=
  match d with
  | Decimal.Nil => acc | Decimal.D0 d => uint_acc (10 * acc + 0) d | Decimal.D1 d => uint_acc (10 * acc + 1) d
  | Decimal.D2 d => uint_acc (10 * acc + 2) d | Decimal.D3 d => uint_acc (10 * acc + 3) d | Decimal.D4 d => uint_acc (10 * acc + 4) d
  | Decimal.D5 d => uint_acc (10 * acc + 5) d | Decimal.D6 d => uint_acc (10 * acc + 6) d | Decimal.D7 d => uint_acc (10 * acc + 7) d
  | Decimal.D8 d => uint_acc (10 * acc + 8) d | Decimal.D9 d => uint_acc (10 * acc + 9) d
  end%N.
Lemma number_show d : forall acc, number_from acc (show_uint d) = Some (uint_acc acc d).
Proof. induction d; intros acc; cbn [show_uint number_from uint_acc]; [reflexivity | ..]; rewrite <- IHd; reflexivity. Qed.
Lemma pos_acc d : forall p, Npos (Pos.of_uint_acc d p) = uint_acc (Npos p) d.
Proof.
  induction d; intros p; cbn [Pos.of_uint_acc uint_acc]; [reflexivity | ..]; rewrite IHd; f_equal; lia.
Qed.
Lemma n_of_uint d : N.of_uint d = uint_acc 0 d.
Proof.
  unfold N.of_uint. induction d; cbn [Pos.of_uint uint_acc]; [reflexivity | exact IHd | ..];
    match goal with |- context [Pos.of_uint_acc ?d ?p] => rewrite (pos_acc d p); reflexivity end.
Qed.
Lemma number_index n : number (show_index n) = Some n.
Proof.
  unfold show_index. assert (E : number_from 0 (show_uint (N.to_uint n)) = Some n).
  { rewrite number_show, <- n_of_uint, DecimalN.Unsigned.of_to. reflexivity. }
  unfold number. destruct (show_uint (N.to_uint n)) eqn:S; [ | exact E].
  exfalso. destruct n as [ | p]; [discriminate S | ]. cbn [N.to_uint] in S. pose proof (DecimalPos.Unsigned.to_uint_nonnil p) as K.
  destruct (Pos.to_uint p); cbn in S; try discriminate.
Qed.
Lemma digit_blank c : is_digit c = true -> blank c = false.
Proof.
  unfold is_digit, code, blank. cbv zeta. rewrite andb_true_iff, !N.leb_le. intros [A B].
  destruct (N.eqb_spec (N_of_ascii c) 32); [lia | ]. cbn [orb]. destruct (N.leb_spec 9 (N_of_ascii c)); [ | reflexivity].
  destruct (N.leb_spec (N_of_ascii c) 13); [lia | reflexivity].
Qed.
Lemma index_plain n : plain_word (show_index n).
Proof.
  split.
  - pose proof (number_index n) as K. intros E. rewrite E in K. discriminate K.
  - unfold show_index. pose proof (show_uint_digits (N.to_uint n)) as H. rewrite forallb_forall in *. intros c Hc. rewrite digit_blank by (apply H, Hc). reflexivity.
Qed.

(** Keyword lines: words with a space after each but the last. *)
Fixpoint line_of (ws : list (list ascii)) : list ascii :=
  match ws with [] => [] | [w] => w | w :: ws' => w ++ " "%char :: line_of ws' end.
Lemma words_line ws : forall fuel s, Forall plain_word ws -> forallb blank s = true -> length ws < fuel -> words fuel (s ++ line_of ws) = ws.
Proof.
  induction ws as [ | w ws IH]; intros fuel s P S L; (destruct fuel as [ | fuel]; [lia | ]); cbn [words line_of].
  - unfold next_word. rewrite skip_blanks by exact S. reflexivity.
  - inversion P as [ | ? ? Pw Pws]; subst. destruct ws as [ | w2 ws].
    + rewrite <- (app_nil_r w) at 1. rewrite (next_word_app s w [] S Pw I). destruct fuel as [ | fuel]; [cbn in L; lia | ]. reflexivity.
    + rewrite (next_word_app s w (" "%char :: line_of (w2 :: ws)) S Pw eq_refl). f_equal.
      apply (IH fuel [" "%char] Pws eq_refl). cbn [length] in *. lia.
Qed.
Lemma line_length ws : Forall plain_word ws -> length ws <= length (line_of ws).
Proof.
  induction ws as [ | w ws IH]; intros P; [cbn; lia | ]. inversion P as [ | ? ? [Nw _] Pws]; subst. specialize (IH Pws).
  assert (1 <= length w) by (destruct w; [contradiction | cbn; lia]).
  destruct ws as [ | w2 ws]; [cbn [line_of length]; lia | ]. cbn [line_of]. rewrite app_length. cbn [length] in *. cbn [line_of] in IH. lia.
Qed.
Lemma line_no_newline ws : Forall plain_word ws -> ~ In "010"%char (line_of ws).
Proof.
  induction ws as [ | w ws IH]; intros P; [intros [] | ]. inversion P as [ | ? ? [Nw Hw] Pws]; subst. specialize (IH Pws).
  destruct ws as [ | w2 ws]; [apply plain_no_newline, Hw | ]. intros I.
  change (line_of (w :: w2 :: ws)) with (w ++ " "%char :: line_of (w2 :: ws)) in I.
  apply in_app_or in I as [I | [I | I]]; [exact (plain_no_newline w Hw I) | discriminate I | exact (IH I)].
Qed.
Lemma keyword_line_ok s ws r : forallb blank s = true -> ws <> [] -> Forall plain_word ws -> keyword_line (s ++ line_of ws ++ "010"%char :: r) = Some (ws, r).
Proof.
  intros Hs N P. unfold keyword_line. rewrite skip_blanks by exact Hs.
  assert (E : skip_blank (line_of ws ++ "010"%char :: r) = line_of ws ++ "010"%char :: r).
  { destruct ws as [ | w ws]; [contradiction | ]. inversion P as [ | ? ? Pw _]; subst.
    destruct ws; cbn [line_of]; [apply skip_blank_word, Pw | ]. rewrite <- app_assoc. apply skip_blank_word, Pw. }
  rewrite E, take_line_app by (apply line_no_newline, P).
  replace (words (S (length (line_of ws))) (line_of ws)) with ws; [reflexivity | ]. symmetry.
  apply (words_line ws _ [] P eq_refl). pose proof (line_length ws P). lia.
Qed.
Lemma keyword_line_first ws r : ws <> [] -> Forall plain_word ws -> keyword_line (line_of ws ++ "010"%char :: r) = Some (ws, r).
Proof. exact (keyword_line_ok [] ws r eq_refl). Qed.

(** *** Data *)
Lemma big_endian_app acc a b : big_endian acc (a ++ b) = big_endian (big_endian acc a) b.
Proof. revert acc. induction a as [ | c a IH]; intros acc; cbn [app big_endian]; auto. Qed.
Lemma big_endian_rev b : big_endian 0 (rev b) = value_le b.
Proof.
  induction b as [ | c b IH]; cbn [rev value_le]; [reflexivity | ]. rewrite big_endian_app, IH. cbn [big_endian]. lia.
Qed.
Lemma stored_ok w n r : (n < 256 ^ N.of_nat w)%N -> stored w (ordered big w n ++ r) = Some (n, r).
Proof.
  intros H. unfold stored. rewrite app_length, ordered_length. destruct (Nat.leb_spec w (w + length r)); [ | lia].
  assert (L : length (ordered big w n) = w) by apply ordered_length.
  rewrite firstn_app, L, Nat.sub_diag, firstn_all2, skipn_app, L, Nat.sub_diag, skipn_all2 by lia. cbn [firstn skipn app]. rewrite app_nil_r.
  f_equal. f_equal. unfold ordered, in_memory. rewrite big_endian_rev. apply value_bytes_le, H.
Qed.

(** What may be left in front of the next word: a blank in text files, nothing in binary files. *)
Definition is_binary (e : encoding) : bool := match e with enc_binary => true | enc_ascii => false end.
Definition pre (e : encoding) (s : list ascii) : Prop := match e with enc_binary => s = [] | enc_ascii => forallb blank s = true end.
Lemma pre_blank e s : pre e s -> forallb blank s = true.
Proof. destruct e; cbn; [auto | intros ->; reflexivity]. Qed.
Lemma pre_nil e : pre e [].
Proof. destruct e; reflexivity. Qed.
Definition reads {A B} (e : encoding) (one : list ascii -> option (A * list ascii)) (enc : B -> list ascii) (val : B -> A) : Prop :=
  forall x s r, pre e s -> exists s', pre e s' /\ one (s ++ enc x ++ r) = Some (val x, s' ++ r).
Lemma many_ok {A B} e (one : list ascii -> option (A * list ascii)) (enc : B -> list ascii) (val : B -> A) :
  reads e one enc val -> reads e (fun b => many one 0 b) (fun _ : unit => []) (fun _ => []) /\
  forall l s r, pre e s -> exists s', pre e s' /\ many one (length l) (s ++ flat_map enc l ++ r) = Some (map val l, s' ++ r).
Proof.
  intros H. split; [intros x s r P; exists s; auto | ].
  induction l as [ | x l IH]; intros s r P; cbn [length many flat_map map app]; [exists s; auto | ].
  destruct (H x s (flat_map enc l ++ r) P) as (s1 & P1 & E1). destruct (IH s1 r P1) as (s2 & P2 & E2).
  exists s2. split; [exact P2 | ]. rewrite <- app_assoc, E1, E2. reflexivity.
Qed.
Lemma many_app {A} (one : list ascii -> option (A * list ascii)) a b t l1 r1 l2 r2 :
  many one a t = Some (l1, r1) -> many one b r1 = Some (l2, r2) -> many one (a + b) t = Some (l1 ++ l2, r2).
Proof.
  revert t l1. induction a as [ | a IH]; intros t l1; cbn [many Nat.add].
  - intros E; injection E as <- <-. auto.
  - destruct (one t) as [[x r] | ]; [ | discriminate]. destruct (many one a r) as [[l r'] | ] eqn:M; [ | discriminate].
    intros E F. injection E as <- <-. rewrite (IH _ _ M F). reflexivity.
Qed.

Section Format.
Variable D : Type.
Variable bits : D -> N.
Variable show15 : D -> list ascii.
Hypothesis bits_size : forall d, (bits d < 2 ^ 64)%N.
Hypothesis show_plain : forall d, plain_word (show15 d).

(** What stands for a number in the file. *)
Definition atom_of (e : encoding) (d : D) : atom := match e with enc_binary => Stored (bits d) | enc_ascii => Shown (show15 d) end.
Definition atoms_of (e : encoding) (v : vec D) : atom * atom * atom := (atom_of e (vx v), atom_of e (vy v), atom_of e (vz v)).
Definition index_of (e : encoding) (i : N) : N := match e with enc_binary => (i mod 2 ^ 32)%N | enc_ascii => i end.

Definition real_bytes (e : encoding) (c : ascii) (d : D) : list ascii :=
  match e with enc_binary => ordered big 8 (bits d) | enc_ascii => show15 d ++ [c] end.
Lemma real_ok e c : blank c = true -> reads e (real (is_binary e)) (real_bytes e c) (atom_of e).
Proof.
  intros B d s r P. destruct e; cbn [is_binary real real_bytes atom_of pre] in *.
  - exists [c]. split; [cbn; rewrite B; reflexivity | ]. rewrite <- app_assoc. cbn [app]. rewrite next_word_app by (auto; exact B). reflexivity.
  - subst s. exists []. split; [reflexivity | ]. cbn [app]. rewrite stored_ok by apply bits_size. reflexivity.
Qed.
Definition point_bytes (e : encoding) (v : vec D) : list ascii :=
  real_bytes e " " (vx v) ++ real_bytes e " " (vy v) ++ real_bytes e "010" (vz v).
Lemma point_ok e : reads e (point (is_binary e)) (point_bytes e) (atoms_of e).
Proof.
  intros v s r P. unfold point, point_bytes, atoms_of. rewrite <- !app_assoc.
  destruct (real_ok e " "%char eq_refl (vx v) s (real_bytes e " " (vy v) ++ real_bytes e "010" (vz v) ++ r) P) as (s1 & P1 & ->).
  destruct (real_ok e " "%char eq_refl (vy v) s1 (real_bytes e "010" (vz v) ++ r) P1) as (s2 & P2 & ->).
  destruct (real_ok e "010"%char eq_refl (vz v) s2 r P2) as (s3 & P3 & ->). exists s3. auto.
Qed.
Definition index_bytes (e : encoding) (i : N) : list ascii := match e with enc_binary => ordered big 4 (uint32 i) | enc_ascii => show_index i ++ ["010"%char] end.
Lemma index_ok e : reads e (integer (is_binary e)) (index_bytes e) (index_of e).
Proof.
  intros i s r P. destruct e; cbn [is_binary integer index_bytes index_of pre] in *.
  - exists ["010"%char]. split; [reflexivity | ]. rewrite <- app_assoc. cbn [app].
    rewrite next_word_app by (auto; try apply index_plain; reflexivity). rewrite number_index. reflexivity.
  - subst s. exists []. split; [reflexivity | ]. cbn [app]. unfold uint32. rewrite stored_ok; [reflexivity | ]. apply N.mod_lt. discriminate.
Qed.
(** A cell. *)
Definition cell_bytes (e : encoding) (c : list N) : list ascii :=
  match e with enc_binary => flat_map (index_bytes enc_binary) c | enc_ascii => concat (cell_text c) end.
Lemma cell_tail c r : ends r -> many (integer false) (length c) (flat_map (fun i => " "%char :: show_index i) c ++ r) = Some (c, r).
Proof.
  intros E. induction c as [ | i c IH]; cbn [length many flat_map app]; [reflexivity | ].
  unfold integer at 1. rewrite <- ?app_assoc.
  assert (En : ends (flat_map (fun i => " "%char :: show_index i) c ++ r)) by (destruct c; [exact E | reflexivity]).
  pose proof (next_word_app [" "%char] (show_index i) _ eq_refl (index_plain i) En) as K. cbn [app] in K. rewrite K, number_index, IH. reflexivity.
Qed.
Lemma cell_text_concat k c : concat (cell_text (k :: c)) = show_index k ++ flat_map (fun i => " "%char :: show_index i) c ++ ["010"%char].
Proof.
  unfold cell_text. rewrite !concat_app. cbn [concat]. rewrite !app_nil_r. f_equal. f_equal.
  induction c as [ | i c IH]; [reflexivity | ]. cbn [flat_map]. rewrite concat_app, IH. cbn [concat]. rewrite app_nil_r. reflexivity.
Qed.
Lemma cell_ok e k c s r : pre e s -> exists s', pre e s' /\
  many (integer (is_binary e)) (length (k :: c)) (s ++ cell_bytes e (k :: c) ++ r) = Some (map (index_of e) (k :: c), s' ++ r).
Proof.
  intros P. destruct e.
  - exists ["010"%char]. split; [reflexivity | ]. cbn [cell_bytes is_binary index_of]. rewrite map_id, cell_text_concat, <- !app_assoc.
    apply (many_app _ 1 (length c) _ [k] (flat_map (fun i => " "%char :: show_index i) c ++ ["010"%char] ++ r) c).
    + cbn [many]. unfold integer. rewrite next_word_app; [rewrite number_index; reflexivity | exact P | apply index_plain | destruct c; reflexivity].
    + apply cell_tail. reflexivity.
  - cbn [cell_bytes]. apply (proj2 (many_ok enc_binary _ _ _ (index_ok enc_binary)) (k :: c) s r P).
Qed.
Lemma cells_many e l : Forall (fun c => c <> []) l -> forall s r, pre e s -> exists s', pre e s' /\
  many (integer (is_binary e)) (length (concat l)) (s ++ flat_map (cell_bytes e) l ++ r) = Some (map (index_of e) (concat l), s' ++ r).
Proof.
  induction l as [ | c l IH]; intros F s r P; [exists s; split; [exact P | reflexivity] | ].
  inversion F as [ | ? ? Nc Fl]; subst. destruct c as [ | k c]; [contradiction | ].
  cbn [concat flat_map]. rewrite app_length, map_app, <- app_assoc.
  destruct (cell_ok e k c s (flat_map (cell_bytes e) l ++ r) P) as (s1 & P1 & E1). destruct (IH Fl s1 r P1) as (s2 & P2 & E2).
  exists s2. split; [exact P2 | ]. exact (many_app _ _ _ _ _ _ _ _ E1 E2).
Qed.
Definition counted (c : list N) : Prop := exists k c', c = k :: c' /\ N.to_nat k = length c' /\ (k < 2 ^ 32)%N.
Lemma index_of_small e k : (k < 2 ^ 32)%N -> index_of e k = k.
Proof. destruct e; cbn; [reflexivity | apply N.mod_small]. Qed.
Lemma cells_ok e l : Forall counted l -> cells (length l) (map (index_of e) (concat l)) = Some (map (fun c => map (index_of e) (tl c)) l).
Proof.
  induction 1 as [ | c l (k & c' & -> & K & S) _ IH]; [reflexivity | ]. cbn [length concat map cells tl app].
  rewrite index_of_small, K, map_app, app_length, map_length by exact S. destruct (Nat.leb_spec (length c') (length c' + length (map (index_of e) (concat l)))); [ | lia].
  assert (L : length (map (index_of e) c') = length c') by apply map_length.
  rewrite skipn_app, firstn_app, L, Nat.sub_diag, <- L, skipn_all, firstn_all. cbn [skipn firstn app]. rewrite IH, app_nil_r. reflexivity.
Qed.

(** *** The sections of the file *)
Lemma lit_words3 a b c r : a ++ " "%char :: b ++ " "%char :: c ++ "010"%char :: r = line_of [a; b; c] ++ "010"%char :: r.
Proof. cbn [line_of]. rewrite <- !app_assoc. cbn [app]. rewrite <- !app_assoc. reflexivity. Qed.
Lemma lit_words2 a b r : a ++ " "%char :: b ++ "010"%char :: r = line_of [a; b] ++ "010"%char :: r.
Proof. cbn [line_of]. rewrite <- !app_assoc. cbn [app]. reflexivity. Qed.
Ltac plain := repeat (apply Forall_cons; [first [apply index_plain | split; [discriminate | reflexivity]] | ]); apply Forall_nil.

Lemma header_ok e r : read_header (step_bytes (vtk_header e) ++ r) = Some (is_binary e, r).
Proof. destruct e; reflexivity. Qed.
Lemma coord_bytes e l : step_bytes (match e with enc_binary => Block (flat_map (coord_ops D bits) l) | enc_ascii => Put (flat_map (coord_text D show15) l) end)
  = flat_map (point_bytes e) l.
Proof.
  destruct e; cbn [step_bytes].
  - etransitivity; [apply concat_flat_map | ]. apply flat_map_ext. intros v. unfold point_bytes, coord_text. cbn [real_bytes concat].  rewrite app_nil_r, <- !app_assoc. reflexivity.
  - rewrite written_flat. apply flat_map_ext. intros v. unfold point_bytes, coord_ops. cbn [real_bytes]. unfold written. cbn [map concat op_bytes]. rewrite app_nil_r. reflexivity.
Qed.
Lemma points_read e count l s r : pre e s -> N.to_nat count = length l -> exists s', pre e s' /\
  read_points (is_binary e) (s ++ all_bytes (vtk_points D bits show15 e count l) ++ r) = Some (map (atoms_of e) l, s' ++ r).
Proof.
  intros P C. unfold all_bytes, vtk_points. cbn [map concat]. rewrite coord_bytes, app_nil_r. cbn [step_bytes concat]. rewrite app_nil_r.
  set (data := flat_map (point_bytes e) l).
  replace (((lit "POINTS " ++ show_index count ++ lit " double" ++ nl) ++ data) ++ r)
    with (line_of [lit "POINTS"; show_index count; lit "double"] ++ "010"%char :: data ++ r)
    by (rewrite <- lit_words3; cbn; rewrite <- !app_assoc; reflexivity).
  unfold read_points. rewrite keyword_line_ok; [ | exact (pre_blank e s P) | discriminate | plain]. rewrite number_index, C.
  exact (proj2 (many_ok e _ _ _ (point_ok e)) l [] r (pre_nil e)).
Qed.
Lemma cell_data e l : step_bytes (match e with enc_binary => Block (flat_map cell_ops l) | enc_ascii => Put (flat_map cell_text l) end) = flat_map (cell_bytes e) l.
Proof.
  destruct e; cbn [step_bytes cell_bytes].
  - etransitivity; [apply concat_flat_map | ]. reflexivity.
  - rewrite written_flat. apply flat_map_ext. intros c. induction c as [ | i c IH]; [reflexivity | ].
    unfold written, cell_ops in *. cbn [map concat op_bytes]. rewrite IH. reflexivity.
Qed.
Lemma cells_read e n total l s r : pre e s -> Forall counted l -> N.to_nat n = length l -> N.to_nat total = length (concat l) -> exists s', pre e s' /\
  read_cells (is_binary e) (s ++ all_bytes (vtk_cells e n total l) ++ r) = Some (map (fun c => map (index_of e) (tl c)) l, s' ++ r).
Proof.
  intros P F C T. unfold all_bytes, vtk_cells. cbn [map concat]. rewrite cell_data, app_nil_r. cbn [step_bytes concat]. rewrite app_nil_r.
  set (data := flat_map (cell_bytes e) l).
  replace (((lit "CELLS " ++ show_index n ++ lit " " ++ show_index total ++ nl) ++ data) ++ r)
    with (line_of [lit "CELLS"; show_index n; show_index total] ++ "010"%char :: data ++ r)
    by (rewrite <- lit_words3; cbn; rewrite <- !app_assoc; cbn; rewrite <- !app_assoc; reflexivity).
  unfold read_cells. rewrite keyword_line_ok; [ | exact (pre_blank e s P) | discriminate | plain]. rewrite !number_index, C, T.
  destruct (cells_many e l) with (s := @nil ascii) (r := r) as (s' & P' & E);
    [eapply Forall_impl; [ | exact F]; intros c (k & c' & -> & _); discriminate | apply pre_nil | ].
  exists s'. split; [exact P' | ]. cbn [app] in E. fold data in E. rewrite E, cells_ok by exact F. reflexivity.
Qed.
Lemma type_data e count ty : step_bytes (match e with enc_binary => Block (repeat (Value 4 ty) count) | enc_ascii => Put (flat_map (fun _ => [show_index ty; nl]) (repeat tt count)) end)
  = flat_map (fun _ => match e with enc_binary => ordered big 4 ty | enc_ascii => show_index ty ++ ["010"%char] end) (repeat tt count).
Proof.
  destruct e; cbn [step_bytes].
  - etransitivity; [apply concat_flat_map | ]. reflexivity.
  - induction count as [ | c IH]; [reflexivity | ]. cbn [repeat flat_map]. rewrite <- IH. reflexivity.
Qed.
Lemma types_read e n count ty s r : pre e s -> (ty < 2 ^ 32)%N -> N.to_nat n = count -> exists s', pre e s' /\
  read_types (is_binary e) (s ++ all_bytes (vtk_types e n count ty) ++ r) = Some (repeat ty count, s' ++ r).
Proof.
  intros P T C. unfold all_bytes, vtk_types. cbn [map concat]. rewrite type_data, app_nil_r. cbn [step_bytes concat]. rewrite app_nil_r.
  set (data := flat_map _ _).
  replace (((lit "CELL_TYPES " ++ show_index n ++ nl) ++ data) ++ r)
    with (line_of [lit "CELL_TYPES"; show_index n] ++ "010"%char :: data ++ r)
    by (rewrite <- lit_words2; cbn; rewrite <- !app_assoc; reflexivity).
  unfold read_types. rewrite keyword_line_ok; [ | exact (pre_blank e s P) | discriminate | plain]. rewrite !number_index, C.
  destruct (proj2 (many_ok e _ _ _ (index_ok e)) (repeat ty count) [] r (pre_nil e)) as (s' & P' & E).
  exists s'. split; [exact P' | ]. rewrite repeat_length in E. cbn [app] in E.
  replace (flat_map (index_bytes e) (repeat ty count)) with data in E.
  - rewrite E. assert (M : map (index_of e) (repeat ty count) = repeat ty count).
    { clear - T. induction count as [ | c IH]; cbn [repeat map]; [reflexivity | ]. rewrite IH, index_of_small by exact T. reflexivity. }
    rewrite M. reflexivity.
  - unfold data, index_bytes. clear - T. induction count as [ | c IH]; cbn [repeat flat_map]; [reflexivity | ]. rewrite IH.
    unfold uint32. rewrite N.mod_small by exact T. reflexivity.
Qed.
Lemma scalars_read e n l s r : pre e s -> N.to_nat n = length l -> exists s', pre e s' /\
  read_scalars (is_binary e) (length l) (s ++ all_bytes [Put [lit "POINT_DATA "; show_index n; nl]; Put [lit "SCALARS Weights double 1" ++ nl]; Put [lit "LOOKUP_TABLE default" ++ nl]]
    ++ flat_map (real_bytes e "010") l ++ r) = Some (lit "Weights", map (atom_of e) l, s' ++ r).
Proof.
  intros P C. unfold all_bytes. cbn [map concat step_bytes]. rewrite !app_nil_r. set (data := flat_map _ _).
  replace (((lit "POINT_DATA " ++ show_index n ++ nl) ++ (lit "SCALARS Weights double 1" ++ nl) ++ lit "LOOKUP_TABLE default" ++ nl) ++ data ++ r)
    with (line_of [lit "POINT_DATA"; show_index n] ++ "010"%char :: line_of [lit "SCALARS"; lit "Weights"; lit "double"; lit "1"] ++ "010"%char ::
          line_of [lit "LOOKUP_TABLE"; lit "default"] ++ "010"%char :: data ++ r)
    by (rewrite <- lit_words2; cbn; rewrite <- !app_assoc; reflexivity).
  unfold read_scalars. rewrite keyword_line_ok; [ | exact (pre_blank e s P) | discriminate | plain].
  cbv beta iota. rewrite keyword_line_first; [ | discriminate | plain].
  cbv beta iota. rewrite keyword_line_first; [ | discriminate | plain].
  rewrite number_index, C, Nat.eqb_refl.
  destruct (proj2 (many_ok e _ _ _ (real_ok e "010"%char eq_refl)) l [] r (pre_nil e)) as (s' & P' & E).
  exists s'. split; [exact P' | ]. cbn [app] in E. fold data in E. rewrite E. reflexivity.
Qed.

Lemma all_bytes_app a b : all_bytes (a ++ b) = all_bytes a ++ all_bytes b.
Proof. unfold all_bytes. rewrite map_app, concat_app. reflexivity. Qed.
Lemma all_bytes_one a : all_bytes [a] = step_bytes a.
Proof. unfold all_bytes. cbn. apply app_nil_r. Qed.
(** A whole file without and with weights. *)
Lemma file_read e np ps n total cs ty : N.to_nat np = length ps -> Forall counted cs -> N.to_nat n = length cs -> N.to_nat total = length (concat cs) -> (ty < 2 ^ 32)%N ->
  read_vtk (all_bytes ([vtk_header e] ++ vtk_points D bits show15 e np ps ++ vtk_cells e n total cs ++ vtk_types e n (length cs) ty))
  = Some (Vtk (map (atoms_of e) ps) (map (fun c => map (index_of e) (tl c)) cs) (repeat ty (length cs)) None).
Proof.
  intros H1 H2 H3 H4 H5. rewrite !all_bytes_app, all_bytes_one. unfold read_vtk. rewrite header_ok.
  destruct (points_read e np ps [] (all_bytes (vtk_cells e n total cs) ++ all_bytes (vtk_types e n (length cs) ty)) (pre_nil e) H1) as (s1 & P1 & E1).
  cbn [app] in E1. rewrite E1. clear E1.
  destruct (cells_read e n total cs s1 (all_bytes (vtk_types e n (length cs) ty)) P1 H2 H3 H4) as (s2 & P2 & E2). rewrite E2. clear E2.
  destruct (types_read e n (length cs) ty s2 [] P2 H5 H3) as (s3 & P3 & E3). rewrite app_nil_r in E3. rewrite E3. clear E3.
  rewrite repeat_length, map_length, Nat.eqb_refl. rewrite skip_blanks by exact (pre_blank e s3 P3). reflexivity.
Qed.
Lemma file_read_weights e np ps n total cs ty ws data : N.to_nat np = length ps -> Forall counted cs -> N.to_nat n = length cs -> N.to_nat total = length (concat cs) -> (ty < 2 ^ 32)%N ->
  length ws = length ps -> step_bytes data = flat_map (real_bytes e "010") ws ->
  read_vtk (all_bytes ([vtk_header e] ++ vtk_points D bits show15 e np ps ++ vtk_cells e n total cs ++ vtk_types e n (length cs) ty
    ++ [Put [lit "POINT_DATA "; show_index np; nl]; Put [lit "SCALARS Weights double 1" ++ nl]; Put [lit "LOOKUP_TABLE default" ++ nl]; data]))
  = Some (Vtk (map (atoms_of e) ps) (map (fun c => map (index_of e) (tl c)) cs) (repeat ty (length cs)) (Some (lit "Weights", map (atom_of e) ws))).
Proof.
  intros H1 H2 H3 H4 H5 H6 H7.
  set (sc := [Put [lit "POINT_DATA "; show_index np; nl]; Put [lit "SCALARS Weights double 1" ++ nl]; Put [lit "LOOKUP_TABLE default" ++ nl]]).
  change (vtk_types e n (length cs) ty ++ _) with (vtk_types e n (length cs) ty ++ sc ++ [data]).
  rewrite !all_bytes_app, !all_bytes_one, H7. unfold read_vtk. rewrite header_ok.
  set (rest := all_bytes sc ++ flat_map (real_bytes e "010") ws).
  destruct (points_read e np ps [] (all_bytes (vtk_cells e n total cs) ++ all_bytes (vtk_types e n (length cs) ty) ++ rest) (pre_nil e) H1) as (s1 & P1 & E1).
  cbn [app] in E1. rewrite E1. clear E1.
  destruct (cells_read e n total cs s1 (all_bytes (vtk_types e n (length cs) ty) ++ rest) P1 H2 H3 H4) as (s2 & P2 & E2). rewrite E2. clear E2.
  destruct (types_read e n (length cs) ty s2 rest P2 H5 H3) as (s3 & P3 & E3). rewrite E3. clear E3.
  rewrite repeat_length, map_length, Nat.eqb_refl, map_length.
  assert (Hn : N.to_nat np = length ws) by congruence.
  destruct (scalars_read e np ws s3 [] P3 Hn) as (s4 & P4 & E4). rewrite !app_nil_r in E4. fold sc rest in E4.
  rewrite skip_blanks by exact (pre_blank e s3 P3). rewrite <- H6, E4.
  rewrite <- (app_nil_r s4), skip_blanks by exact (pre_blank e s4 P4).
  replace (skip_blank rest) with rest by reflexivity. reflexivity.
Qed.
End Format.
