(** The parser is complete for the JSON grammar, so the grammar is unambiguous. *)
From Coq Require Import String Ascii Bool NArith Arith List Lia.
From Verif Require Import JsonSpec.
Import ListNotations.
Local Open Scope nat_scope.

Scheme derives_ind' := Minimality for derives Sort Prop
with members_ind' := Minimality for members Sort Prop
with member_ind' := Minimality for member Sort Prop
with elements_ind' := Minimality for elements Sort Prop.
Combined Scheme json_ind from derives_ind', members_ind', member_ind', elements_ind'.

Lemma ws_app a b : ws a -> ws b -> ws (a ++ b).
Proof. unfold ws. intros A B. rewrite forallb_app, A, B. reflexivity. Qed.

Lemma skip_ws w t : ws w -> skip (w ++ t) = skip t.
Proof.
  unfold ws. induction w as [|c w IH]; intros H; [reflexivity|]. simpl in H. apply andb_true_iff in H.
  destruct H as [A B]. simpl. rewrite A. auto.
Qed.
Lemma skip_head c t : is_ws c = false -> skip (c :: t) = c :: t.
Proof. intros H. simpl. rewrite H. reflexivity. Qed.
Lemma skip_all w : ws w -> skip w = [].
Proof. intros H. rewrite <- (app_nil_r w), skip_ws by assumption. reflexivity. Qed.

(** numbers consist of number characters *)
Lemma digits_split t : exists a, t = a ++ digits t /\ forallb is_digit a = true.
Proof.
  induction t as [|c t [a [E H]]]; [exists []; auto|]. simpl. destruct (is_digit c) eqn:D.
  - exists (c :: a). simpl. rewrite D, H. split; [f_equal; exact E | reflexivity].
  - exists []. auto.
Qed.
Lemma digit_number a : forallb is_digit a = true -> forallb number_char a = true.
Proof.
  rewrite !forallb_forall. intros H c I. unfold number_char. rewrite (H c I). reflexivity.
Qed.
Lemma digits1_split t r : digits1 t = Some r -> exists a, t = a ++ r /\ forallb number_char a = true.
Proof.
  unfold digits1. destruct t as [|c t]; [discriminate|]. destruct (is_digit c) eqn:D; [|discriminate].
  intros E. inversion E; subst. destruct (digits_split t) as [a [Ea H]].
  exists (c :: a). simpl. rewrite <- Ea, (digit_number a H). unfold number_char. rewrite D. auto.
Qed.
Lemma p_sign_split t : exists a, t = a ++ p_sign t /\ forallb number_char a = true.
Proof.
  destruct t as [|c t]; [exists []; auto|]. simpl. destruct (Ascii.eqb c "-") eqn:E; [|exists []; auto].
  apply Ascii.eqb_eq in E. subst. exists ["-"%char]. auto.
Qed.
Lemma p_int_split t r : p_int t = Some r -> exists a, t = a ++ r /\ forallb number_char a = true.
Proof.
  destruct t as [|c t]; [discriminate|]. unfold p_int. destruct (Ascii.eqb c "0") eqn:E; [|apply digits1_split].
  apply Ascii.eqb_eq in E. subst. intros H. inversion H; subst. exists ["0"%char]. auto.
Qed.
Lemma p_frac_split t r : p_frac t = Some r -> exists a, t = a ++ r /\ forallb number_char a = true.
Proof.
  destruct t as [|c t]; [intros E; inversion E; exists []; auto|]. unfold p_frac. destruct (Ascii.eqb c ".") eqn:E.
  - apply Ascii.eqb_eq in E. subst. intros H. destruct (digits1_split t r H) as [a [Ea Ha]]. exists ("."%char :: a).
    simpl. rewrite Ea, Ha. auto.
  - intros H. inversion H; subst. exists []. auto.
Qed.
Lemma p_exp_split t r : p_exp t = Some r -> exists a, t = a ++ r /\ forallb number_char a = true.
Proof.
  destruct t as [|c t]; [intros E; inversion E; exists []; auto|]. unfold p_exp. destruct (is_e c) eqn:E.
  - assert (N : number_char c = true) by (unfold number_char; rewrite E, !orb_true_r; reflexivity).
    destruct t as [|s t]; [discriminate|]. destruct (Ascii.eqb s "+" || Ascii.eqb s "-") eqn:S.
    + intros H. destruct (digits1_split t r H) as [a [Ea Ha]]. exists (c :: s :: a). simpl. rewrite Ea, Ha, N.
      split; [reflexivity|]. apply orb_true_iff in S. unfold number_char.
      destruct S as [S|S]; apply Ascii.eqb_eq in S; subst; reflexivity.
    + intros H. destruct (digits1_split (s :: t) r H) as [a [Ea Ha]]. exists (c :: a). simpl. rewrite Ea, Ha, N. auto.
  - intros H. inversion H; subst. exists []. auto.
Qed.
Lemma number_chars t : is_number t = true -> forallb number_char t = true.
Proof.
  unfold is_number. destruct (p_sign_split t) as [a [Ea Ha]].
  destruct (p_int (p_sign t)) as [r|] eqn:I; [|discriminate]. destruct (p_int_split _ _ I) as [b [Eb Hb]].
  destruct (p_frac r) as [r'|] eqn:F; [|discriminate]. destruct (p_frac_split _ _ F) as [c [Ec Hc]].
  destruct (p_exp r') as [[|]|] eqn:X; try discriminate. destruct (p_exp_split _ _ X) as [d [Ed Hd]].
  intros _. rewrite Ea, Eb, Ec, Ed, app_nil_r. rewrite !forallb_app, Ha, Hb, Hc, Hd. reflexivity.
Qed.
Lemma number_head t : is_number t = true -> exists c r, t = c :: r /\ (c = "-"%char \/ is_digit c = true).
Proof.
  destruct t as [|c r]; [discriminate|]. intros H. exists c, r. split; [reflexivity|].
  destruct (Ascii.eqb c "-") eqn:E; [apply Ascii.eqb_eq in E; auto|]. right.
  unfold is_number, p_sign in H. rewrite E in H. unfold p_int in H.
  destruct (Ascii.eqb c "0") eqn:Z; [apply Ascii.eqb_eq in Z; subst; reflexivity|].
  unfold digits1 in H. destruct (is_digit c); [reflexivity | discriminate].
Qed.
Lemma p_number_app t rest : forallb number_char t = true ->
  (rest = [] \/ exists c r, rest = c :: r /\ number_char c = false) -> p_number (t ++ rest) = (t, rest).
Proof.
  intros H R. induction t as [|c t IH]; simpl in *.
  - destruct R as [-> | [c [r [-> N]]]]; [reflexivity|]. simpl. rewrite N. reflexivity.
  - apply andb_true_iff in H. destruct H as [A B]. rewrite A, (IH B). reflexivity.
Qed.

(** strings *)
Lemma unescaped_not c : unescaped c = true -> Ascii.eqb c """" = false /\ Ascii.eqb c "\" = false.
Proof.
  unfold unescaped. rewrite !andb_true_iff, !negb_true_iff. tauto.
Qed.
Lemma p_chars_complete s t : chars s t -> forall rest, p_chars (t ++ """"%char :: rest) = Some (s, rest).
Proof.
  induction 1 as [|c s t U H IH|c n s t E H IH|a b c d i j k l s t Ha Hb Hc Hd H IH]; intros rest.
  - reflexivity.
  - destruct (unescaped_not c U) as [A B]. cbn [app p_chars]. rewrite A, B, U, IH. reflexivity.
  - cbn [app p_chars]. change (Ascii.eqb "\" """") with false. change (Ascii.eqb "\" "\") with true. cbv iota.
    destruct (Ascii.eqb c "u") eqn:U; [apply Ascii.eqb_eq in U; subst; discriminate E|].
    rewrite E, IH. reflexivity.
  - cbn [app p_chars]. change (Ascii.eqb "\" """") with false. change (Ascii.eqb "\" "\") with true.
    change (Ascii.eqb "u" "u") with true. cbv iota. rewrite Ha, Hb, Hc, Hd, IH. reflexivity.
Qed.

(** what may follow a value *)
Definition stop (rest : str) : Prop := rest = [] \/ exists c r, rest = c :: r /\ number_char c = false.

Lemma stop_ws w c r : ws w -> number_char c = false -> stop (w ++ c :: r).
Proof.
  intros W N. right. destruct w as [|a w]; [exists c, r; auto|]. exists a, (w ++ c :: r). split; [reflexivity|].
  unfold ws in W. simpl in W. apply andb_true_iff in W. destruct W as [W _].
  destruct a as [[] [] [] [] [] [] [] []]; try reflexivity; discriminate W.
Qed.

Lemma derives_head v t : derives v t -> exists c r, t = c :: r /\ is_ws c = false /\ Ascii.eqb c "]" = false.
Proof.
  destruct 1; try (eexists; eexists; split; [reflexivity | split; reflexivity]).
  destruct (number_head t H) as [c [r [E D]]]. exists c, r. split; [exact E|].
  destruct D as [-> | D]; [split; reflexivity|].
  destruct c as [[] [] [] [] [] [] [] []]; try (split; reflexivity); discriminate D.
Qed.

Lemma digit_first c : c = "-"%char \/ is_digit c = true ->
  Ascii.eqb c """" = false /\ Ascii.eqb c "{" = false /\ Ascii.eqb c "[" = false /\
  Ascii.eqb c "n" = false /\ Ascii.eqb c "t" = false /\ Ascii.eqb c "f" = false.
Proof.
  intros [-> | D]; [repeat split; reflexivity|].
  destruct c as [[] [] [] [] [] [] [] []]; try discriminate D; repeat split; reflexivity.
Qed.

Lemma strip_one_eq c t : strip [c] (c :: t) = Some t.
Proof. simpl. rewrite Ascii.eqb_refl. destruct t; reflexivity. Qed.
Lemma strip_one_ne c d t : Ascii.eqb c d = false -> strip [c] (d :: t) = None.
Proof. intros H. simpl. rewrite H. reflexivity. Qed.

Lemma p_members_S f t : p_members (S f) t =
      match strip [""""%char] (skip t) with
      | None => None
      | Some r =>
          match p_chars r with
          | None => None
          | Some (n, r) =>
              match strip [":"%char] (skip r) with
              | None => None
              | Some r =>
                  match p_value f (skip r) with
                  | None => None
                  | Some (v, r) =>
                      match skip r with
                      | c :: x => if Ascii.eqb c "," then
                                    match p_members f x with Some (l, y) => Some ((n, v) :: l, y) | None => None end
                                  else if Ascii.eqb c "}" then Some ([(n, v)], x) else None
                      | [] => None
                      end
                  end
              end
          end
      end.
Proof. reflexivity. Qed.
Lemma p_elements_S f t : p_elements (S f) t =
      match p_value f (skip t) with
      | None => None
      | Some (v, r) =>
          match skip r with
          | c :: x => if Ascii.eqb c "," then
                        match p_elements f x with Some (l, y) => Some (v :: l, y) | None => None end
                      else if Ascii.eqb c "]" then Some ([v], x) else None
          | [] => None
          end
      end.
Proof. reflexivity. Qed.

Definition Pv (v : jv) (t : str) := forall fuel rest, length t <= fuel -> stop rest -> p_value fuel (t ++ rest) = Some (v, rest).
Definition Pms (l : list (list N * jv)) (t : str) :=
  (forall fuel rest, length t < fuel -> p_members fuel (t ++ "}"%char :: rest) = Some (l, rest)) /\
  (exists r, skip t = """"%char :: r).
Definition Pm (f : list N * jv) (t : str) :=
  (forall fuel c rest, length t < fuel -> is_ws c = false -> number_char c = false ->
     p_members fuel (t ++ c :: rest) =
       if Ascii.eqb c "," then match p_members (pred fuel) rest with Some (l, y) => Some (f :: l, y) | None => None end
       else if Ascii.eqb c "}" then Some ([f], rest) else None) /\
  (exists r, skip t = """"%char :: r).
Definition Pe (l : list jv) (t : str) :=
  (forall fuel rest, length t < fuel -> p_elements fuel (t ++ "]"%char :: rest) = Some (l, rest)) /\
  (exists c r, skip t = c :: r /\ Ascii.eqb c "]" = false).

Lemma skip_app t c r rest : skip t = c :: r -> skip (t ++ rest) = c :: r ++ rest.
Proof.
  induction t as [|a t IH]; [discriminate|]. simpl. destruct (is_ws a); [exact IH|].
  intros E. inversion E; subst. reflexivity.
Qed.

Lemma complete_all :
  (forall v t, derives v t -> Pv v t) /\ (forall l t, members l t -> Pms l t) /\
  (forall f t, member f t -> Pm f t) /\ (forall l t, elements l t -> Pe l t).
Proof.
  apply json_ind.
  - intros fuel rest L S. destruct fuel; [simpl in L; lia|]. destruct rest; reflexivity.
  - intros fuel rest L S. destruct fuel; [simpl in L; lia|]. destruct rest; reflexivity.
  - intros fuel rest L S. destruct fuel; [simpl in L; lia|]. destruct rest; reflexivity.
  - intros t H fuel rest L S. assert (N := p_number_app t rest (number_chars t H) S).
    destruct (number_head t H) as [c [r [-> D]]]. destruct fuel; [simpl in L; lia|].
    destruct (digit_first c D) as [A1 [A2 [A3 [A4 [A5 A6]]]]]. cbn [app] in *. cbn [p_value].
    rewrite A1, A2, A3, A4, A5, A6, N, H. reflexivity.
  - intros s t H fuel rest L S. destruct fuel; [simpl in L; lia|]. cbn [app p_value].
    change (Ascii.eqb """" """") with true. cbv iota. rewrite <- app_assoc. cbn [app].
    rewrite (p_chars_complete s t H). reflexivity.
  - intros w H fuel rest L S. destruct fuel; [simpl in L; lia|]. cbn [app p_value].
    change (Ascii.eqb "{" """") with false. change (Ascii.eqb "{" "{") with true. cbv iota.
    rewrite <- app_assoc. cbn [app]. rewrite skip_ws by exact H. rewrite skip_head by reflexivity.
    rewrite strip_one_eq. reflexivity.
  - intros l t H [IH [r E]] fuel rest L S. destruct fuel; [simpl in L; lia|]. cbn [app p_value].
    change (Ascii.eqb "{" """") with false. change (Ascii.eqb "{" "{") with true. cbv iota.
    rewrite <- app_assoc. cbn [app]. rewrite (skip_app _ _ _ _ E), strip_one_ne by reflexivity.
    rewrite IH; [reflexivity|]. cbn [length] in L. rewrite app_length in L. cbn [length] in L. lia.
  - intros w H fuel rest L S. destruct fuel; [simpl in L; lia|]. cbn [app p_value].
    change (Ascii.eqb "[" """") with false. change (Ascii.eqb "[" "{") with false. change (Ascii.eqb "[" "[") with true. cbv iota.
    rewrite <- app_assoc. cbn [app]. rewrite skip_ws by exact H. rewrite skip_head by reflexivity.
    rewrite strip_one_eq. reflexivity.
  - intros l t H [IH [c [r [E N]]]] fuel rest L S. destruct fuel; [simpl in L; lia|]. cbn [app p_value].
    change (Ascii.eqb "[" """") with false. change (Ascii.eqb "[" "{") with false. change (Ascii.eqb "[" "[") with true. cbv iota.
    rewrite <- app_assoc. cbn [app]. rewrite (skip_app _ _ _ _ E), strip_one_ne by (rewrite Ascii.eqb_sym; exact N).
    rewrite IH; [reflexivity|]. cbn [length] in L. rewrite app_length in L. cbn [length] in L. lia.
  - intros f t H [IH E]. split; [|exact E]. intros fuel rest L. rewrite IH by (try reflexivity; exact L). reflexivity.
  - intros f l t u H [IH [r E]] H' [IH' _]. split.
    + intros fuel rest L. rewrite app_length in L. cbn [length] in L.
      rewrite <- app_assoc. cbn [app]. rewrite IH by (try reflexivity; lia).
      change (Ascii.eqb "," ",") with true. cbv iota. rewrite IH' by lia. reflexivity.
    + exists (r ++ ","%char :: u). apply skip_app, E.
  - intros n v w1 k w2 w3 t w4 W1 C W2 W3 Dv IH W4. split.
    + intros fuel c rest L Nw Nn. destruct fuel as [|f]; [lia|].
      repeat (rewrite ?app_length in L; cbn [length] in L).
      rewrite p_members_S. repeat (rewrite <- ?app_assoc; cbn [app]).
      rewrite skip_ws by exact W1. rewrite skip_head by reflexivity. rewrite strip_one_eq.
      rewrite (p_chars_complete n k C). rewrite skip_ws by exact W2. rewrite skip_head by reflexivity. rewrite strip_one_eq.
      rewrite skip_ws by exact W3. destruct (derives_head v t Dv) as [a [b [Et [Wa _]]]].
      assert (Es : skip (t ++ w4 ++ c :: rest) = t ++ w4 ++ c :: rest) by (rewrite Et; apply skip_head, Wa).
      rewrite Es, IH; [|lia | apply stop_ws; assumption].
      rewrite skip_ws by exact W4. rewrite skip_head by exact Nw. reflexivity.
    + eexists. rewrite skip_ws by exact W1. apply skip_head. reflexivity.
  - intros v w1 t w2 W1 Dv IH W2. split.
    + intros fuel rest L. destruct fuel as [|f]; [lia|]. rewrite !app_length in L.
      rewrite p_elements_S. rewrite <- !app_assoc. rewrite skip_ws by exact W1.
      destruct (derives_head v t Dv) as [a [b [Et [Wa _]]]].
      assert (Es : skip (t ++ w2 ++ "]"%char :: rest) = t ++ w2 ++ "]"%char :: rest) by (rewrite Et; apply skip_head, Wa).
      rewrite Es, IH; [|lia | apply stop_ws; [assumption | reflexivity]].
      rewrite skip_ws by exact W2. rewrite skip_head by reflexivity. reflexivity.
    + destruct (derives_head v t Dv) as [a [b [Et [Wa Na]]]]. exists a, (b ++ w2).
      rewrite skip_ws by exact W1. rewrite Et. split; [apply skip_head, Wa | exact Na].
  - intros v l w1 t w2 u W1 Dv IH W2 H [IH' _]. split.
    + intros fuel rest L. destruct fuel as [|f]; [lia|]. rewrite !app_length in L. cbn [length] in L.
      rewrite p_elements_S. repeat (rewrite <- ?app_assoc; cbn [app]). rewrite skip_ws by exact W1.
      destruct (derives_head v t Dv) as [a [b [Et [Wa _]]]].
      assert (Es : skip (t ++ w2 ++ ","%char :: u ++ "]"%char :: rest) = t ++ w2 ++ ","%char :: u ++ "]"%char :: rest)
        by (rewrite Et; apply skip_head, Wa).
      rewrite Es, IH; [|lia | apply stop_ws; [assumption | reflexivity]].
      rewrite skip_ws by exact W2. rewrite skip_head by reflexivity. change (Ascii.eqb "," ",") with true. cbv iota.
      rewrite IH' by lia. reflexivity.
    + destruct (derives_head v t Dv) as [a [b [Et [Wa Na]]]]. exists a, (b ++ w2 ++ ","%char :: u).
      rewrite skip_ws by exact W1. rewrite Et. split; [apply skip_head, Wa | exact Na].
Qed.

Theorem parse_complete v t : json v t -> parse t = Some v.
Proof.
  intros [w1 [u [w2 [W1 [H [W2 ->]]]]]]. unfold parse. rewrite skip_ws by exact W1.
  destruct (derives_head v u H) as [a [b [Et [Wa _]]]].
  assert (Es : skip (u ++ w2) = u ++ w2) by (rewrite Et; apply skip_head, Wa). rewrite Es.
  destruct complete_all as [C _]. rewrite (C v u H).
  - rewrite skip_all by exact W2. reflexivity.
  - rewrite !app_length. lia.
  - destruct w2 as [|c w2]; [left; reflexivity|]. right. exists c, w2. split; [reflexivity|].
    unfold ws in W2. simpl in W2. apply andb_true_iff in W2. destruct W2 as [W2 _].
    destruct c as [[] [] [] [] [] [] [] []]; try reflexivity; discriminate W2.
Qed.

(** a text is the JSON text of at most one value *)
Theorem json_unambiguous v v' t : json v t -> json v' t -> v = v'.
Proof. intros A B. apply parse_complete in A, B. congruence. Qed.
