(** Proofs about data sets and dictionaries (C25, C26, C27). *)
From Coq Require Import String Ascii Bool NArith ZArith Arith Lia List.
From Verif Require Import KeysModel KeysProofs DictModel.
Import ListNotations.
Local Open Scope nat_scope.

Section Doubles.
Variable D : Type.
Variable of_int : Z -> D.
Notation dict := (dict D).
Notation dataset := (dataset D).
Notation value := (value D).
Notation input := (input D).

(** *** Induction over nested dictionaries *)

Lemma dict_nested_ind (P : dict -> Prop) :
  (forall data subs lists,
    (forall ks l d, subs = Some (ks, l) -> In (Some d) l -> P d) ->
    (forall ks ll l d, lists = Some (ks, ll) -> In l ll -> In (Some d) l -> P d) ->
    P (Dict data subs lists)) ->
  forall d, P d.
Proof.
  intros H. fix IH 1. intros [data subs lists]. apply H.
  - intros ks l d. destruct subs as [[ks' l']|]; [|discriminate]. intros E.
    assert (El : l' = l) by congruence. rewrite <- El. clear E El l.
    revert l' d. fix IHl 1. intros [|o l'] d; [intros []|].
    intros [E|I].
    + destruct o as [d'|]; [|discriminate].
      assert (Ed : d' = d) by congruence. rewrite <- Ed. apply IH.
    + exact (IHl l' d I).
  - intros ks ll l d. destruct lists as [[ks' ll']|]; [|discriminate]. intros E.
    assert (El : ll' = ll) by congruence. rewrite <- El. clear E El ll.
    revert ll' l d. fix IHll 1. intros [|l0 ll'] l d; [intros []|].
    intros [E|I].
    + rewrite <- E. clear E l. revert l0 d. fix IHl 1. intros [|o l'] d; [intros []|].
      intros [E|I].
      * destruct o as [d'|]; [|discriminate].
        assert (Ed : d' = d) by congruence. rewrite <- Ed. apply IH.
      * exact (IHl l' d I).
    + exact (IHll ll' l d I).
Qed.

(** *** Lists *)

Lemma set_nth_some {A} (i : nat) (x : A) l : i < length l -> exists l', set_nth i x l = Some l'.
Proof.
  revert i. induction l as [|y l IH]; intros i H; simpl in H; [lia|].
  destruct i; simpl; [eauto|]. destruct (IH i) as [l' E]; [lia|]. rewrite E. eauto.
Qed.

Lemma set_nth_length {A} (i : nat) (x : A) l l' : set_nth i x l = Some l' -> length l' = length l.
Proof.
  revert i l'. induction l as [|y l IH]; intros i l' H; [ discriminate H | ].
  destruct i; simpl in H; [inversion H; reflexivity|].
  destruct (set_nth i x l) as [l0|] eqn:E; [|discriminate]. inversion H. simpl. f_equal. eauto.
Qed.

Lemma set_nth_range {A} (i : nat) (x : A) l l' : set_nth i x l = Some l' -> i < length l.
Proof.
  revert i l'. induction l as [|y l IH]; intros i l' H; [ discriminate H | ].
  destruct i; simpl in *; [lia|]. destruct (set_nth i x l) as [l0|] eqn:E; [|discriminate].
  apply IH in E. lia.
Qed.

Lemma set_nth_get {A} (i : nat) (x : A) l l' j : set_nth i x l = Some l' ->
  nth_error l' j = if j =? i then Some x else nth_error l j.
Proof.
  revert i l' j. induction l as [|y l IH]; intros i l' j H; [discriminate|].
  destruct i; simpl in H.
  - inversion H. destruct j; reflexivity.
  - destruct (set_nth i x l) as [l0|] eqn:E; [|discriminate]. inversion H.
    destruct j; [reflexivity|]. simpl. eauto.
Qed.

Lemma set_nth_same {A} (i : nat) (x : A) l : nth_error l i = Some x -> set_nth i x l = Some l.
Proof.
  revert i. induction l as [|y l IH]; intros i H; destruct i; simpl in *; try discriminate.
  - congruence.
  - rewrite (IH i H). reflexivity.
Qed.

(** *** Invariants *)

(** Every entry of a data set is unset or has the type declared for its key. *)
Definition typed_dataset (ds : dataset) : Prop :=
  wf_keyset (ds_keys ds) /\ length (ds_data ds) = num_keys (ds_keys ds) /\
  forall n k v t, pget_key (ds_keys ds) n = Some k -> nth_error (ds_data ds) (k_index k) = Some v ->
    held v = Some t -> k_type k = Some t.

(** One level of a dictionary: the containers have the size of their key set
    and the data set is typed. *)
Definition level_ok (d : dict) : Prop :=
  match d_data d with Some ds => typed_dataset ds | None => True end /\
  match d_subs d with Some (ks, l) => wf_keyset ks /\ length l = num_keys ks | None => True end /\
  match d_lists d with Some (ks, ll) => wf_keyset ks /\ length ll = num_keys ks | None => True end.

(** Every dictionary that can be reached is well-formed. *)
Definition sound (d : dict) : Prop := forall p d', walk d p = Ok d' -> level_ok d'.

Lemma sound_level (d : dict) : sound d -> level_ok d.
Proof. intros H. apply (H [] d). reflexivity. Qed.

Lemma sound_go (d : dict) s d' : sound d -> go d s = Ok d' -> sound d'.
Proof. intros H G p x W. apply (H (s :: p) x). simpl. rewrite G. exact W. Qed.

Lemma sound_intro (d : dict) : level_ok d -> (forall s d', go d s = Ok d' -> sound d') -> sound d.
Proof.
  intros L H [|s p] x W; simpl in W; [inversion W; subst; exact L|].
  destruct (go d s) as [d'| | |] eqn:G; simpl in W; try discriminate. exact (H s d' G p x W).
Qed.

(** *** Data sets *)

(** How a value given by the caller is stored in an entry of a declared type:
    a value of that type as it is; an integer as double, or as index if it is
    not negative; an integer vector also as a vector of doubles. *)
Inductive conv : input -> ty -> value -> Prop :=
| c_point a b c : conv (IPoint a b c) TPoint (VPoint a b c)
| c_vec a b c : conv (IVec a b c) TVec (VVec a b c)
| c_vec_point a b c : conv (IVec a b c) TPoint (VPoint (of_int (Z.of_N a)) (of_int (Z.of_N b)) (of_int (Z.of_N c)))
| c_bool b : conv (IBool b) TBool (VBool b)
| c_double d : conv (IDouble d) TDouble (VDouble d)
| c_index n : conv (IIndex n) TIndex (VIndex n)
| c_index_double n : conv (IIndex n) TDouble (VDouble (of_int (Z.of_N n)))
| c_int z n : z = Z.of_N n -> conv (IInt z) TIndex (VIndex n)
| c_int_double z : conv (IInt z) TDouble (VDouble (of_int z))
| c_string s : conv (IString s) TString (VString s)
| c_method m : conv (IMethod m) TMethod (VMethod m)
| c_grid g : conv (IGrid g) TGrid (VGrid g).

Lemma conv_held v t w : conv v t w -> held w = Some t.
Proof. destruct 1; reflexivity. Qed.

Lemma conv_det v t w w' : conv v t w -> conv v t w' -> w = w'.
Proof.
  intros A B. destruct A; inversion B; subst; try reflexivity.
  match goal with H : Z.of_N _ = Z.of_N _ |- _ => apply N2Z.inj in H; subst; reflexivity end.
Qed.

Lemma ty_eqb_eq a b : ty_eqb a b = true <-> a = b.
Proof. destruct a, b; simpl; split; intros; congruence. Qed.

Lemma target_is_eq k t : target_is k t = true <-> k_type k = Some t.
Proof.
  unfold target_is. destruct (k_type k) as [t'|]; [|split; discriminate].
  rewrite ty_eqb_eq. split; congruence.
Qed.

Lemma store_ok (ds : dataset) i v : i < length (ds_data ds) ->
  exists l, set_nth i v (ds_data ds) = Some l /\ store ds i v = ({| ds_keys := ds_keys ds; ds_data := l |}, Ok tt).
Proof. intros H. destruct (set_nth_some i v _ H) as [l E]. exists l. unfold store. rewrite E. auto. Qed.

(** Either the assignment is possible and stores the converted value, or it
    throws and nothing is changed. *)
Lemma set_value_spec (ds : dataset) n v : typed_dataset ds ->
  (exists k t w l, pget_key (ds_keys ds) n = Some k /\ k_type k = Some t /\ conv v t w /\
     set_nth (k_index k) w (ds_data ds) = Some l /\
     set_value of_int ds n v = ({| ds_keys := ds_keys ds; ds_data := l |}, Ok tt)) \/
  ((forall k t w, pget_key (ds_keys ds) n = Some k -> k_type k = Some t -> ~ conv v t w) /\
   set_value of_int ds n v = (ds, Error)).
Proof.
  intros [W [L T]]. unfold set_value. destruct (pget_key (ds_keys ds) n) as [k|] eqn:K.
  2:{ right. split; [discriminate | reflexivity]. }
  assert (R : k_index k < length (ds_data ds)).
  { rewrite L. destruct (pget_key_wf _ _ _ W K) as [_ [_ [R _]]]. exact R. }
  assert (S : forall t w, k_type k = Some t -> conv v t w ->
    exists k0 t w0 l, Some k = Some k0 /\ k_type k0 = Some t /\ conv v t w0 /\
      set_nth (k_index k0) w0 (ds_data ds) = Some l /\
      store ds (k_index k) w = ({| ds_keys := ds_keys ds; ds_data := l |}, Ok tt)).
  { intros t w Et C. destruct (store_ok ds (k_index k) w R) as [l [E1 E2]].
    exists k, t, w, l. auto. }
  assert (F : forall t, target_is k t = false -> k_type k <> Some t).
  { intros t H E. apply target_is_eq in E. congruence. }
  destruct v;
    repeat match goal with
    | |- context [target_is k ?t] =>
        let H := fresh "E" in destruct (target_is k t) eqn:H;
        [apply target_is_eq in H | apply F in H]
    | |- context [(?z <? 0)%Z] => let H := fresh "E" in destruct (Z.ltb_spec z 0) as [H|H]
    end;
    try (left; eapply S; [eassumption | constructor; rewrite ?Z2N.id by assumption; reflexivity]);
    right; (split; [|reflexivity]); intros k0 t0 w0 K0 Et C; inversion K0; subst k0;
    inversion C; subst; try congruence.
  assert (0 <= Z.of_N n0)%Z by apply N2Z.is_nonneg. lia.
Qed.

Lemma set_value_keys (ds : dataset) n v : ds_keys (fst (set_value of_int ds n v)) = ds_keys ds.
Proof.
  unfold set_value. destruct (pget_key (ds_keys ds) n) as [k|]; [|reflexivity].
  assert (S : forall i w, ds_keys (fst (store ds i w)) = ds_keys ds).
  { intros i w. unfold store. destruct (set_nth i w (ds_data ds)); reflexivity. }
  destruct v; repeat match goal with |- context [if ?b then _ else _] => destruct b end; try reflexivity; apply S.
Qed.

Lemma set_value_typed (ds : dataset) n v : typed_dataset ds -> typed_dataset (fst (set_value of_int ds n v)).
Proof.
  intros H. destruct (set_value_spec ds n v H) as [[k [t [w [l [K [Et [C [E S]]]]]]]]|[_ S]]; rewrite S; [|exact H].
  destruct H as [W [L T]]. simpl. unfold typed_dataset. simpl. split; [exact W|].
  split; [rewrite (set_nth_length _ _ _ _ E); exact L|].
  intros n' k' v' t' K' N' H'. rewrite (set_nth_get _ _ _ _ _ E) in N'.
  destruct (k_index k' =? k_index k) eqn:I.
  - apply Nat.eqb_eq in I. assert (n' = n) by (eapply pget_key_inj; eauto). subst n'.
    assert (k' = k) by congruence. subst k'.
    inversion N'; subst. apply conv_held in C. congruence.
  - eapply T; eauto.
Qed.

(** Reading back. *)
Lemma get_value_ok (ds : dataset) n t w : typed_dataset ds ->
  get_value t ds n = Ok w <->
  exists k, pget_key (ds_keys ds) n = Some k /\ nth_error (ds_data ds) (k_index k) = Some w /\ held w = Some t.
Proof.
  intros _. unfold get_value. destruct (pget_key (ds_keys ds) n) as [k|] eqn:K.
  - destruct (nth_error (ds_data ds) (k_index k)) as [v|] eqn:E.
    + destruct (held v) as [t'|] eqn:H.
      * destruct (ty_eqb t' t) eqn:T.
        -- apply ty_eqb_eq in T. subst. split.
           ++ intros X. inversion X; subst. exists k. auto.
           ++ intros [k' [K' [N' H']]]. congruence.
        -- split; [discriminate|]. intros [k' [K' [N' H']]].
           assert (k' = k) by congruence. subst. assert (v = w) by congruence. subst.
           assert (t' = t) by congruence. subst. assert (ty_eqb t t = true) by (apply ty_eqb_eq; reflexivity). congruence.
      * split; [discriminate|]. intros [k' [K' [N' H']]]. congruence.
    + split; [discriminate|]. intros [k' [K' [N' H']]]. congruence.
  - split; [discriminate|]. intros [k' [K' _]]. congruence.
Qed.

Lemma get_value_frame (ds : dataset) n v n' t : typed_dataset ds -> n' <> n ->
  get_value t (fst (set_value of_int ds n v)) n' = get_value t ds n'.
Proof.
  intros H Hn. destruct (set_value_spec ds n v H) as [[k [t0 [w [l [K [Et [C [E S]]]]]]]]|[_ S]]; rewrite S; [|reflexivity].
  unfold get_value. simpl. destruct (pget_key (ds_keys ds) n') as [k'|] eqn:K'; [|reflexivity].
  rewrite (set_nth_get _ _ _ _ _ E). destruct (k_index k' =? k_index k) eqn:I; [|reflexivity].
  apply Nat.eqb_eq in I. exfalso. apply Hn. destruct H as [W _]. eapply pget_key_inj; eauto.
Qed.

Lemma is_set_frame (ds : dataset) n v n' : typed_dataset ds -> n' <> n ->
  is_set (fst (set_value of_int ds n v)) n' = is_set ds n'.
Proof.
  intros H Hn. destruct (set_value_spec ds n v H) as [[k [t0 [w [l [K [Et [C [E S]]]]]]]]|[_ S]]; rewrite S; [|reflexivity].
  unfold is_set. simpl. destruct (pget_key (ds_keys ds) n') as [k'|] eqn:K'; [|reflexivity].
  rewrite (set_nth_get _ _ _ _ _ E). destruct (k_index k' =? k_index k) eqn:I; [|reflexivity].
  apply Nat.eqb_eq in I. exfalso. apply Hn. destruct H as [W _]. eapply pget_key_inj; eauto.
Qed.

(** The accessors by name never have undefined behaviour. *)
Lemma get_value_cases (ds : dataset) n t : typed_dataset ds ->
  (exists w, get_value t ds n = Ok w) \/ get_value t ds n = Error.
Proof.
  intros [W [L T]]. unfold get_value. destruct (pget_key (ds_keys ds) n) as [k|] eqn:K; [|auto].
  destruct (pget_key_wf _ _ _ W K) as [_ [_ [R _]]]. rewrite <- L in R.
  destruct (nth_error (ds_data ds) (k_index k)) as [v|] eqn:E; [|apply nth_error_None in E; lia].
  destruct (held v) as [t'|]; [|auto]. destruct (ty_eqb t' t); eauto.
Qed.

(** *** Steps in a dictionary *)

Lemma put_same (d : dict) s d' : go d s = Ok d' -> put d s d' = d.
Proof.
  destruct d as [v ss ll]. destruct s as [n|n i]; simpl.
  - destruct ss as [[ks l]|]; [|discriminate]. destruct (pget_key ks n) as [k|]; [|discriminate].
    destruct (nth_error l (k_index k)) as [[x|]|] eqn:E; try discriminate.
    intros H. inversion H; subst. rewrite (set_nth_same _ _ _ E). reflexivity.
  - destruct ll as [[ks l]|]; [|discriminate]. destruct (pget_key ks n) as [k|] eqn:K; [|discriminate].
    destruct (nth_error l (k_index k)) as [l1|] eqn:E; [|discriminate].
    destruct (nth_error l1 i) as [[x|]|] eqn:F; try discriminate.
    intros H. inversion H; subst. rewrite (set_nth_same _ _ _ F), (set_nth_same _ _ _ E). reflexivity.
Qed.

(** The two forms of a dictionary after [put]. *)
Lemma put_cases (d : dict) s x :
  put d s x = d \/
  (exists n ks l k l', s = Sub n /\ d_subs d = Some (ks, l) /\ pget_key ks n = Some k /\
     set_nth (k_index k) (Some x) l = Some l' /\ put d s x = Dict (d_data d) (Some (ks, l')) (d_lists d)) \/
  (exists n i ks ll k l l' ll', s = Item n i /\ d_lists d = Some (ks, ll) /\ pget_key ks n = Some k /\
     nth_error ll (k_index k) = Some l /\ set_nth i (Some x) l = Some l' /\ set_nth (k_index k) l' ll = Some ll' /\
     put d s x = Dict (d_data d) (d_subs d) (Some (ks, ll'))).
Proof.
  destruct s as [n|n i]; simpl.
  - destruct (d_subs d) as [[ks l]|] eqn:E; [|auto]. destruct (pget_key ks n) as [k|] eqn:K; [|auto].
    destruct (set_nth (k_index k) (Some x) l) as [l'|] eqn:S; [|auto].
    right. left. exists n, ks, l, k, l'. auto.
  - destruct (d_lists d) as [[ks ll]|] eqn:E; [|auto]. destruct (pget_key ks n) as [k|] eqn:K; [|auto].
    destruct (nth_error ll (k_index k)) as [l|] eqn:N; [|auto].
    destruct (set_nth i (Some x) l) as [l'|] eqn:S; [|auto].
    destruct (set_nth (k_index k) l' ll) as [ll'|] eqn:S'; [|auto].
    right. right. exists n, i, ks, ll, k, l, l', ll'. repeat split; auto.
Qed.

Lemma put_data (d : dict) s x : d_data (put d s x) = d_data d.
Proof.
  destruct (put_cases d s x) as [E|[H|H]]; [rewrite E; reflexivity| |].
  - destruct H as [n [ks [l [k [l' [_ [_ [_ [_ E]]]]]]]]]. rewrite E. reflexivity.
  - destruct H as [n [i [ks [ll [k [l [l' [ll' [_ [_ [_ [_ [_ [_ E]]]]]]]]]]]]]]. rewrite E. reflexivity.
Qed.

Lemma put_level (d : dict) s x : level_ok d -> level_ok (put d s x).
Proof.
  unfold level_ok. intros [A [B C]].
  destruct (put_cases d s x) as [E|[H|H]]; [rewrite E; auto| |].
  - destruct H as [n [ks [l [k [l' [_ [Es [_ [S E]]]]]]]]]. rewrite E. simpl. rewrite Es in B.
    rewrite (set_nth_length _ _ _ _ S). auto.
  - destruct H as [n [i [ks [ll [k [l [l' [ll' [_ [Es [_ [_ [_ [S E]]]]]]]]]]]]]]. rewrite E. simpl. rewrite Es in C.
    rewrite (set_nth_length _ _ _ _ S). auto.
Qed.

Lemma go_put_same (d : dict) s d' x : go d s = Ok d' -> go (put d s x) s = Ok x.
Proof.
  destruct s as [n|n i]; simpl.
  - destruct (d_subs d) as [[ks l]|]; [|discriminate]. destruct (pget_key ks n) as [k|] eqn:K; [|discriminate].
    destruct (nth_error l (k_index k)) as [[y|]|] eqn:E; try discriminate. intros _.
    destruct (set_nth_some (k_index k) (Some x) l) as [l' S]; [apply nth_error_Some; congruence|].
    rewrite S. simpl. rewrite K. rewrite (set_nth_get _ _ _ _ _ S), Nat.eqb_refl. reflexivity.
  - destruct (d_lists d) as [[ks l]|]; [|discriminate]. destruct (pget_key ks n) as [k|] eqn:K; [|discriminate].
    destruct (nth_error l (k_index k)) as [l1|] eqn:E; [|discriminate].
    destruct (nth_error l1 i) as [[y|]|] eqn:F; try discriminate. intros _.
    destruct (set_nth_some i (Some x) l1) as [l2 S2]; [apply nth_error_Some; congruence|].
    destruct (set_nth_some (k_index k) l2 l) as [l3 S3]; [apply nth_error_Some; congruence|].
    rewrite S2, S3. simpl. rewrite K. rewrite (set_nth_get _ _ _ _ _ S3), Nat.eqb_refl.
    rewrite (set_nth_get _ _ _ _ _ S2), Nat.eqb_refl. reflexivity.
Qed.

Lemma go_put_other (d : dict) s s' x : level_ok d -> s' <> s -> go (put d s x) s' = go d s'.
Proof.
  intros [_ [B C]] Hs.
  destruct (put_cases d s x) as [E|[H|H]]; [rewrite E; reflexivity| |].
  - destruct H as [n [ks [l [k [l' [-> [Es [K [S E]]]]]]]]]. rewrite E. rewrite Es in B. destruct B as [W _].
    destruct s' as [n'|n' j]; simpl; [|reflexivity]. rewrite Es.
    destruct (pget_key ks n') as [k'|] eqn:K'; [|reflexivity].
    rewrite (set_nth_get _ _ _ _ _ S). destruct (k_index k' =? k_index k) eqn:I; [|reflexivity].
    apply Nat.eqb_eq in I. exfalso. apply Hs. f_equal. eapply pget_key_inj; eauto.
  - destruct H as [n [i [ks [ll [k [l1 [l2 [l3 [-> [Es [K [E1 [E2 [E3 E]]]]]]]]]]]]]]. rewrite E. rewrite Es in C. destruct C as [W _].
    destruct s' as [n'|n' j]; simpl; [reflexivity|]. rewrite Es.
    destruct (pget_key ks n') as [k'|] eqn:K'; [|reflexivity].
    rewrite (set_nth_get _ _ _ _ _ E3). destruct (k_index k' =? k_index k) eqn:I; [|reflexivity].
    apply Nat.eqb_eq in I. assert (n' = n) by (eapply pget_key_inj; eauto). subst n'.
    assert (k' = k) by congruence. subst k'. rewrite E1.
    rewrite (set_nth_get _ _ _ _ _ E2). destruct (j =? i) eqn:J; [|reflexivity].
    apply Nat.eqb_eq in J. subst. congruence.
Qed.

Lemma step_eq_dec (a b : step) : {a = b} + {a <> b}.
Proof. repeat decide equality. Qed.

Lemma go_put_cases (d : dict) s s' x y : level_ok d -> (exists d', go d s = Ok d') ->
  go (put d s x) s' = Ok y -> y = x \/ go d s' = Ok y.
Proof.
  intros L [d' G] H. destruct (step_eq_dec s' s) as [-> | N].
  - rewrite (go_put_same _ _ _ _ G) in H. left. congruence.
  - rewrite go_put_other in H by assumption. auto.
Qed.

(** *** Single operations *)

Definition action_sound (a : action D) : Prop :=
  match a with SetVal _ _ => True | SetSub _ x | Append _ x => forall y, x = Some y -> sound y end.

Lemma dict_set_go (d : dict) n v s : go (fst (dict_set of_int d n v)) s = go d s.
Proof.
  destruct d as [[ds|] ss ll]; [|reflexivity]. simpl. destruct (set_value of_int ds n v). reflexivity.
Qed.

Lemma dict_set_level (d : dict) n v : level_ok d -> level_ok (fst (dict_set of_int d n v)).
Proof.
  destruct d as [[ds|] ss ll]; [|auto]. intros [A B]. simpl in A.
  assert (T := set_value_typed ds n v A). simpl.
  destruct (set_value of_int ds n v) as [ds' r]. split; [exact T | exact B].
Qed.

Lemma act_sound (d : dict) a : sound d -> action_sound a -> sound (fst (act of_int d a)).
Proof.
  intros S A. assert (L := sound_level d S). destruct a as [n v|n x|n x]; simpl.
  - apply sound_intro; [apply dict_set_level, L|]. intros s d' G. rewrite dict_set_go in G. eapply sound_go; eauto.
  - unfold dict_set_sub. destruct d as [v ss ll]. destruct ss as [[ks l]|]; [|exact S].
    destruct (pget_key ks n) as [k|] eqn:K; [|exact S].
    destruct (set_nth (k_index k) x l) as [l'|] eqn:E; [|exact S]. simpl.
    apply sound_intro.
    + destruct L as [L1 [L2 L3]]. split; [exact L1|]. split; [|exact L3]. simpl in *.
      rewrite (set_nth_length _ _ _ _ E). exact L2.
    + intros s d' G. destruct s as [n'|n' j].
      * simpl in G. destruct (pget_key ks n') as [k'|] eqn:K'; [|discriminate].
        rewrite (set_nth_get _ _ _ _ _ E) in G. destruct (k_index k' =? k_index k) eqn:I.
        -- destruct x as [y|]; [|discriminate]. inversion G; subst. apply A. reflexivity.
        -- eapply (sound_go _ (Sub n')); [exact S|]. simpl. rewrite K'. exact G.
      * eapply (sound_go _ (Item n' j)); [exact S|]. exact G.
  - unfold dict_append. destruct d as [v ss ll]. destruct ll as [[ks l]|]; [|exact S].
    destruct (pget_key ks n) as [k|] eqn:K; [|exact S].
    destruct (nth_error l (k_index k)) as [l1|] eqn:E1; [|exact S].
    destruct (set_nth (k_index k) (l1 ++ [x]) l) as [l'|] eqn:E; [|exact S]. simpl.
    apply sound_intro.
    + destruct L as [L1 [L2 L3]]. split; [exact L1|]. split; [exact L2|]. simpl in *.
      rewrite (set_nth_length _ _ _ _ E). exact L3.
    + intros s d' G. destruct s as [n'|n' j].
      * eapply (sound_go _ (Sub n')); [exact S|]. exact G.
      * simpl in G. destruct (pget_key ks n') as [k'|] eqn:K'; [|discriminate].
        rewrite (set_nth_get _ _ _ _ _ E) in G. destruct (k_index k' =? k_index k) eqn:I.
        -- apply Nat.eqb_eq in I.
           destruct (nth_error (l1 ++ [x]) j) as [[y|]|] eqn:J; try discriminate. inversion G; subst y.
           destruct (Nat.lt_ge_cases j (length l1)) as [H|H].
           ++ rewrite nth_error_app1 in J by exact H.
              eapply (sound_go _ (Item n' j)); [exact S|]. simpl. rewrite K', I, E1, J. reflexivity.
           ++ rewrite nth_error_app2 in J by exact H.
              destruct (j - length l1) as [|m]; simpl in J; [|destruct m; discriminate].
              inversion J; subst. apply A. reflexivity.
        -- eapply (sound_go _ (Item n' j)); [exact S|]. simpl. rewrite K'. exact G.
Qed.

Lemma act_at_sound p : forall d a, sound d -> action_sound a -> sound (fst (act_at of_int d p a)).
Proof.
  induction p as [|s p IH]; intros d a S A; [apply act_sound; assumption|].
  simpl. destruct (go d s) as [d'| | |] eqn:G; try exact S.
  assert (S' := IH d' a (sound_go _ _ _ S G) A).
  destruct (act_at of_int d' p a) as [d'' r]. simpl in *.
  apply sound_intro; [apply put_level, sound_level, S|].
  intros s' y H. destruct (go_put_cases d s s' d'' y (sound_level _ S) (ex_intro _ d' G) H) as [E|E].
  - rewrite E. exact S'.
  - exact (sound_go d s' y S E).
Qed.

Lemma run_sound ops : forall d, sound d -> Forall (fun op => action_sound (snd op)) ops ->
  sound (run of_int d ops).
Proof.
  unfold run. induction ops as [|op ops IH]; intros d S F; [exact S|].
  inversion F; subst. simpl. apply IH; [|assumption]. apply act_at_sound; assumption.
Qed.

(** A failing operation changes nothing. *)
Lemma act_fails (d : dict) a : sound d -> snd (act of_int d a) <> Ok tt -> fst (act of_int d a) = d.
Proof.
  intros S. assert (L := sound_level d S). destruct a as [n v|n x|n x]; simpl.
  - destruct d as [[ds|] ss ll]; [|reflexivity]. simpl. destruct L as [L _]. simpl in L.
    destruct (set_value_spec ds n v L) as [[k [t [w [l [_ [_ [_ [_ E]]]]]]]]|[_ E]]; rewrite E; simpl; [congruence | reflexivity].
  - unfold dict_set_sub. destruct d as [v ss ll]. destruct ss as [[ks l]|]; [|reflexivity].
    destruct (pget_key ks n) as [k|]; [|reflexivity].
    destruct (set_nth (k_index k) x l) as [l'|]; simpl; [congruence | reflexivity].
  - unfold dict_append. destruct d as [v ss ll]. destruct ll as [[ks l]|]; [|reflexivity].
    destruct (pget_key ks n) as [k|]; [|reflexivity].
    destruct (nth_error l (k_index k)) as [l1|]; [|reflexivity].
    destruct (set_nth (k_index k) (l1 ++ [x]) l) as [l'|]; simpl; [congruence | reflexivity].
Qed.

Lemma act_at_fails p : forall d a, sound d -> snd (act_at of_int d p a) <> Ok tt -> fst (act_at of_int d p a) = d.
Proof.
  induction p as [|s p IH]; intros d a S H; [apply act_fails; assumption|].
  simpl in *. destruct (go d s) as [d'| | |] eqn:G; try reflexivity.
  specialize (IH d' a (sound_go _ _ _ S G)).
  destruct (act_at of_int d' p a) as [d'' r]. simpl in *. rewrite (IH H).
  apply put_same, G.
Qed.

(** *** Reading after writing *)

(** Read the entry [n] of the dictionary at path [p] with the accessor of type [t]. *)
Definition read (d : dict) (p : list step) (t : ty) (n : text) : res value :=
  bind (walk d p) (fun x => dict_get t x n).
Definition is_set_at (d : dict) (p : list step) (n : text) : res bool :=
  bind (walk d p) (fun x => dict_is_set x n).

Lemma dict_get_set (d : dict) n v : sound d -> snd (dict_set of_int d n v) = Ok tt ->
  exists t w, conv v t w /\
    (forall t', dict_get t' (fst (dict_set of_int d n v)) n = if ty_eqb t t' then Ok w else Error) /\
    dict_is_set (fst (dict_set of_int d n v)) n = Ok true.
Proof.
  intros S. assert (L := sound_level d S). destruct d as [[ds|] ss ll]; [|discriminate].
  destruct L as [L _]. simpl in L. simpl.
  destruct (set_value_spec ds n v L) as [[k [t [w [l [K [Et [C [E S']]]]]]]]|[_ S']]; rewrite S'; simpl; [|discriminate].
  intros _. exists t, w. split; [exact C|]. unfold dict_get, dict_is_set, get_value, is_set. simpl. rewrite K.
  rewrite (set_nth_get _ _ _ _ _ E), Nat.eqb_refl, (conv_held _ _ _ C).
  split; [|reflexivity]. intros t'. destruct (ty_eqb t t'); reflexivity.
Qed.

Lemma dict_get_set_other (d : dict) n v n' t : sound d -> n' <> n ->
  dict_get t (fst (dict_set of_int d n v)) n' = dict_get t d n' /\
  dict_is_set (fst (dict_set of_int d n v)) n' = dict_is_set d n'.
Proof.
  intros S N. assert (L := sound_level d S). destruct d as [[ds|] ss ll]; [|auto].
  destruct L as [L _]. simpl in L. simpl.
  assert (A := get_value_frame ds n v n' t L N). assert (B := is_set_frame ds n v n' L N).
  destruct (set_value of_int ds n v) as [ds' r]. unfold dict_get, dict_is_set. simpl in *. auto.
Qed.

Lemma read_set p : forall d n v, sound d -> snd (act_at of_int d p (SetVal n v)) = Ok tt ->
  exists t w, conv v t w /\
    (forall t', read (fst (act_at of_int d p (SetVal n v))) p t' n = if ty_eqb t t' then Ok w else Error) /\
    is_set_at (fst (act_at of_int d p (SetVal n v))) p n = Ok true.
Proof.
  induction p as [|s p IH]; intros d n v S H.
  - exact (dict_get_set d n v S H).
  - cbn [act_at] in *. destruct (go d s) as [d'| | |] eqn:G; try discriminate.
    specialize (IH d' n v (sound_go _ _ _ S G)).
    destruct (act_at of_int d' p (SetVal n v)) as [d'' r]. cbn [fst snd] in *.
    destruct (IH H) as [t [w [C [R I]]]]. exists t, w. split; [exact C|].
    unfold read, is_set_at in *. cbn [walk].
    rewrite (go_put_same _ _ _ d'' G). cbn [bind]. auto.
Qed.

Lemma read_set_other p : forall d n v p' n' t, sound d -> (p', n') <> (p, n) ->
  read (fst (act_at of_int d p (SetVal n v))) p' t n' = read d p' t n' /\
  is_set_at (fst (act_at of_int d p (SetVal n v))) p' n' = is_set_at d p' n'.
Proof.
  induction p as [|s p IH]; intros d n v p' n' t S N.
  - cbn [act_at act]. destruct p' as [|s' p'].
    + apply dict_get_set_other; [exact S|]. intros ->. apply N. reflexivity.
    + unfold read, is_set_at. cbn [walk]. rewrite dict_set_go. auto.
  - cbn [act_at]. destruct (go d s) as [d'| | |] eqn:G; try (split; reflexivity).
    assert (L := sound_level _ S).
    destruct (act_at of_int d' p (SetVal n v)) as [d'' r] eqn:A. cbn [fst].
    destruct p' as [|s' p'].
    + unfold read, is_set_at, dict_get, dict_is_set. cbn [walk bind]. rewrite put_data. auto.
    + unfold read, is_set_at. cbn [walk]. destruct (step_eq_dec s' s) as [-> | Hs].
      * rewrite (go_put_same _ _ _ d'' G), G. cbn [bind].
        specialize (IH d' n v p' n' t (sound_go _ _ _ S G)). rewrite A in IH. cbn [fst] in IH.
        unfold read, is_set_at in IH. apply IH. intros E. apply N. inversion E. reflexivity.
      * rewrite go_put_other by assumption. auto.
Qed.

(** An assignment succeeds exactly if the dictionary exists, has the key and
    the value can be converted to its type. *)
Lemma set_succeeds p : forall d n v, sound d ->
  snd (act_at of_int d p (SetVal n v)) = Ok tt <->
  exists x ds k t w, walk d p = Ok x /\ d_data x = Some ds /\ pget_key (ds_keys ds) n = Some k /\
    k_type k = Some t /\ conv v t w.
Proof.
  induction p as [|s p IH]; intros d n v S.
  - cbn [act_at act walk]. assert (L := sound_level d S). destruct d as [[ds|] ss ll].
    + destruct L as [L _]. simpl in L. simpl.
      destruct (set_value_spec ds n v L) as [[k [t [w [l [K [Et [C [E S']]]]]]]]|[X S']]; rewrite S'; simpl.
      * split; [|reflexivity]. intros _. exists (Dict (Some ds) ss ll), ds, k, t, w. simpl. auto.
      * split; [discriminate|]. intros [x [ds0 [k [t [w [E0 [E1 [K [Et C]]]]]]]]]. inversion E0; subst x.
        simpl in E1. inversion E1; subst ds0. exfalso. exact (X k t w K Et C).
    + simpl. split; [discriminate|]. intros [x [ds0 [k [t [w [E0 [E1 _]]]]]]]. inversion E0; subst x. discriminate.
  - cbn [act_at walk]. destruct (go d s) as [d'| | |] eqn:G; cbn [bind].
    + specialize (IH d' n v (sound_go _ _ _ S G)).
      destruct (act_at of_int d' p (SetVal n v)) as [d'' r]. exact IH.
    + split; [discriminate|]. intros [x [ds [k [t [w [E _]]]]]]. discriminate.
    + split; [discriminate|]. intros [x [ds [k [t [w [E _]]]]]]. discriminate.
    + split; [discriminate|]. intros [x [ds [k [t [w [E _]]]]]]. discriminate.
Qed.

(** *** The required check *)

(** Everything the check has to find, at one level. *)
Definition level_complete (d : dict) : Prop :=
  (forall ds n k, d_data d = Some ds -> In (n, k) (ks_map (ds_keys ds)) -> k_req k = true -> dict_is_set d n = Ok true) /\
  (forall ks l n, d_subs d = Some (ks, l) -> In n (ks_names ks) -> exists x, go d (Sub n) = Ok x) /\
  (forall ks ll l o, d_lists d = Some (ks, ll) -> In l ll -> In o l -> o <> None).

(** A complete dictionary: every required value of every dictionary that can be
    reached is set, every sub-dictionary is present, no list entry is empty. *)
Definition complete (d : dict) : Prop := forall p d', walk d p = Ok d' -> level_complete d'.

Lemma complete_iff (d : dict) : complete d <-> level_complete d /\ forall s d', go d s = Ok d' -> complete d'.
Proof.
  split.
  - intros H. split; [apply (H [] d); reflexivity|]. intros s d' G p x W. apply (H (s :: p) x). simpl. rewrite G. exact W.
  - intros [L H] [|s p] x W; simpl in W; [inversion W; subst; exact L|].
    destruct (go d s) as [d'| | |] eqn:G; simpl in W; try discriminate. exact (H s d' G p x W).
Qed.

Lemma check_values_spec m (data : list value) : (forall n k, In (n, k) m -> k_index k < length data) ->
  (check_values m data = Ok tt /\
   forall n k, In (n, k) m -> k_req k = true -> exists v t, nth_error data (k_index k) = Some v /\ held v = Some t) \/
  (check_values m data = Error /\
   exists n k, In (n, k) m /\ k_req k = true /\ nth_error data (k_index k) = Some Unset).
Proof.
  induction m as [|[n k] m IH]; intros H; [left; split; [reflexivity | intros ? ? []]|].
  assert (H' : forall n k, In (n, k) m -> k_index k < length data) by (intros; eapply H; right; eassumption).
  cbn [check_values]. destruct (k_req k) eqn:R.
  - assert (I := H n k (or_introl eq_refl)).
    destruct (nth_error data (k_index k)) as [v|] eqn:E; [|apply nth_error_None in E; lia].
    destruct (held v) as [t|] eqn:Hv.
    + destruct (IH H') as [[A B]|[A [n' [k' [B C]]]]].
      * left. split; [exact A|]. intros n0 k0 [X|X] Y; [inversion X; subst; eauto | eauto].
      * right. split; [exact A|]. exists n', k'. split; [right; exact B | exact C].
    + right. split; [reflexivity|]. exists n, k. split; [left; reflexivity|]. split; [exact R|].
      destruct v; try discriminate. exact E.
  - destruct (IH H') as [[A B]|[A [n' [k' [B C]]]]].
    + left. split; [exact A|]. intros n0 k0 [X|X] Y; [congruence | eauto].
    + right. split; [exact A|]. exists n', k'. split; [right; exact B | exact C].
Qed.

Lemma run_keys_spec m c : (forall n k, In (n, k) m -> exists r, nth_error c (k_index k) = Some r /\ (r = Ok tt \/ r = Error)) ->
  (run_keys m c = Ok tt /\ forall n k, In (n, k) m -> nth_error c (k_index k) = Some (Ok tt)) \/
  (run_keys m c = Error /\ exists n k, In (n, k) m /\ nth_error c (k_index k) = Some Error).
Proof.
  induction m as [|[n k] m IH]; intros H; [left; split; [reflexivity | intros ? ? []]|].
  destruct (H n k (or_introl eq_refl)) as [r [E R]]. cbn [run_keys]. rewrite E.
  destruct R; subst r; cbn [bind].
  - destruct IH as [[A B]|[A [n' [k' [B C]]]]]; [intros; eapply H; right; eassumption | |].
    + left. split; [exact A|]. intros n0 k0 [X|X]; [inversion X; subst; exact E | eauto].
    + right. split; [exact A|]. exists n', k'. split; [right; exact B | exact C].
  - right. split; [reflexivity|]. exists n, k. split; [left; reflexivity | exact E].
Qed.

Lemma run_all_spec c : (forall r, In r c -> r = Ok tt \/ r = Error) ->
  (run_all c = Ok tt /\ forall r, In r c -> r = Ok tt) \/ (run_all c = Error /\ In Error c).
Proof.
  induction c as [|r c IH]; intros H; [left; split; [reflexivity | intros ? []]|].
  cbn [run_all]. destruct (H r (or_introl eq_refl)) as [-> | ->]; cbn [bind].
  - destruct IH as [[A B]|[A B]]; [intros; apply H; right; assumption | |].
    + left. split; [exact A|]. intros r [<- | X]; auto.
    + right. split; [exact A | right; exact B].
  - right. split; [reflexivity | left; reflexivity].
Qed.

Lemma check_required_unfold (data : option dataset) subs lists : check_required (Dict data subs lists) =
  bind (match data with Some ds => check_dataset ds | None => Ok tt end) (fun _ =>
  bind (match subs with
        | Some (ks, l) => run_keys (ks_map ks) (map (fun o => match o with None => Error | Some d' => check_required d' end) l)
        | None => Ok tt end) (fun _ =>
  match lists with
  | Some (ks, ll) => run_keys (ks_map ks)
      (map (fun l => run_all (map (fun o => match o with None => Error | Some d' => check_required d' end) l)) ll)
  | None => Ok tt end)).
Proof. reflexivity. Qed.

Lemma go_sub_in (data : option dataset) ks l lists n d' : go (Dict data (Some (ks, l)) lists) (Sub n) = Ok d' -> In (Some d') l.
Proof.
  simpl. destruct (pget_key ks n) as [k|]; [|discriminate].
  destruct (nth_error l (k_index k)) as [[x|]|] eqn:E; try discriminate.
  intros H. inversion H; subst. eapply nth_error_In; exact E.
Qed.

Lemma go_sub_of (data : option dataset) ks l lists d' : wf_keyset ks -> length l = num_keys ks -> In (Some d') l ->
  exists n, go (Dict data (Some (ks, l)) lists) (Sub n) = Ok d'.
Proof.
  intros W L I. apply In_nth_error in I. destruct I as [i E].
  assert (R : i < num_keys ks) by (rewrite <- L; apply nth_error_Some; congruence).
  destruct (keys_all_in ks W i R) as [n [k [Hk Ek]]]. exists n. simpl.
  unfold pget_key. rewrite (find_key_in _ (wf_map ks W) n k Hk). rewrite Ek, E. reflexivity.
Qed.

Lemma go_item_in (data : option dataset) subs ks ll n i d' : go (Dict data subs (Some (ks, ll))) (Item n i) = Ok d' ->
  exists l, In l ll /\ In (Some d') l.
Proof.
  simpl. destruct (pget_key ks n) as [k|]; [|discriminate].
  destruct (nth_error ll (k_index k)) as [l|] eqn:E; [|discriminate].
  destruct (nth_error l i) as [[x|]|] eqn:F; try discriminate.
  intros H. inversion H; subst. exists l. split; eapply nth_error_In; eassumption.
Qed.

Lemma go_item_of (data : option dataset) subs ks ll l d' : wf_keyset ks -> length ll = num_keys ks -> In l ll -> In (Some d') l ->
  exists n i, go (Dict data subs (Some (ks, ll))) (Item n i) = Ok d'.
Proof.
  intros W L Il I. apply In_nth_error in I. destruct I as [i E]. apply In_nth_error in Il. destruct Il as [j F].
  assert (R : j < num_keys ks) by (rewrite <- L; apply nth_error_Some; congruence).
  destruct (keys_all_in ks W j R) as [n [k [Hk Ek]]]. exists n, i. simpl.
  unfold pget_key. rewrite (find_key_in _ (wf_map ks W) n k Hk). rewrite Ek, F, E. reflexivity.
Qed.

Theorem check_required_spec (d : dict) : sound d ->
  (check_required d = Ok tt /\ complete d) \/ (check_required d = Error /\ ~ complete d).
Proof.
  induction d as [data subs lists IHs IHl] using dict_nested_ind. intros S.
  assert (L := sound_level _ S). destruct L as [Ld [Ls Ll]]. simpl in Ld, Ls, Ll.
  rewrite check_required_unfold.
  (* the values *)
  assert (V : (match data with Some ds => check_dataset ds | None => Ok tt end = Ok tt /\
      forall ds n k, data = Some ds -> In (n, k) (ks_map (ds_keys ds)) -> k_req k = true -> is_set ds n = Ok true) \/
    (match data with Some ds => check_dataset ds | None => Ok tt end = Error /\
      exists ds n k, data = Some ds /\ In (n, k) (ks_map (ds_keys ds)) /\ k_req k = true /\ is_set ds n = Ok false)).
  { destruct data as [ds|]; [|left; split; [reflexivity | discriminate]].
    destruct Ld as [W [Len _]].
    assert (P : forall n k, In (n, k) (ks_map (ds_keys ds)) -> pget_key (ds_keys ds) n = Some k).
    { intros n k H. apply find_key_in; [apply (wf_map _ W) | exact H]. }
    assert (R : forall n k, In (n, k) (ks_map (ds_keys ds)) -> k_index k < length (ds_data ds)).
    { intros n k H. rewrite Len. apply (pget_key_wf _ n k W). apply P, H. }
    unfold check_dataset. destruct (check_values_spec _ _ R) as [[A B]|[A [n [k [B [C E]]]]]].
    - left. split; [exact A|]. intros ds0 n k E H Q. inversion E; subst ds0.
      destruct (B n k H Q) as [v [t [E1 E2]]]. unfold is_set. rewrite (P n k H), E1, E2. reflexivity.
    - right. split; [exact A|]. exists ds, n, k. split; [reflexivity|]. split; [exact B|]. split; [exact C|].
      unfold is_set. rewrite (P n k B), E. reflexivity. }
  destruct V as [[V1 V2]|[V1 [ds [n [k [E0 [E1 [E2 E3]]]]]]]]; rewrite V1; cbn [bind].
  2:{ right. split; [reflexivity|]. intros C. destruct (proj1 (complete_iff _) C) as [[C1 _] _].
      specialize (C1 ds n k E0 E1 E2). unfold dict_is_set in C1. simpl in C1. rewrite E0 in C1. congruence. }
  (* the sub-dictionaries *)
  set (entry := fun o => match o with None => Error | Some d' => check_required d' end) in *.
  assert (U : (match subs with Some (ks, l) => run_keys (ks_map ks) (map entry l) | None => Ok tt end = Ok tt /\
      (forall ks l n, subs = Some (ks, l) -> In n (ks_names ks) -> exists x, go (Dict data subs lists) (Sub n) = Ok x) /\
      (forall n x, go (Dict data subs lists) (Sub n) = Ok x -> complete x)) \/
    (match subs with Some (ks, l) => run_keys (ks_map ks) (map entry l) | None => Ok tt end = Error /\
      ~ complete (Dict data subs lists))).
  { destruct subs as [[ks l]|]; [|left; split; [reflexivity|]; split; [discriminate | discriminate]].
    destruct Ls as [W Len].
    assert (Sx : forall x, In (Some x) l -> sound x).
    { intros x H. destruct (go_sub_of data ks l lists x W Len H) as [n G]. eapply sound_go; eauto. }
    assert (R : forall n k, In (n, k) (ks_map ks) ->
      exists r, nth_error (map entry l) (k_index k) = Some r /\ (r = Ok tt \/ r = Error)).
    { intros n k H.
      assert (I : k_index k < length l).
      { rewrite Len. apply (pget_key_wf _ n k W). apply find_key_in; [apply (wf_map _ W) | exact H]. }
      destruct (nth_error l (k_index k)) as [o|] eqn:E; [|apply nth_error_None in E; lia].
      exists (entry o). split; [apply map_nth_error; exact E|].
      destruct o as [x|]; [|right; reflexivity].
      destruct (IHs ks l x eq_refl (nth_error_In _ _ E)) as [[H1 _]|[H1 _]];
        [apply Sx; eapply nth_error_In; exact E | left; exact H1 | right; exact H1]. }
    destruct (run_keys_spec _ _ R) as [[A B]|[A [n [k [B C]]]]].
    - left. split; [exact A|].
      assert (Q : forall n k, In (n, k) (ks_map ks) -> exists x, nth_error l (k_index k) = Some (Some x) /\ check_required x = Ok tt).
      { intros n k H. specialize (B n k H).
        destruct (nth_error l (k_index k)) as [o|] eqn:E.
        - rewrite (map_nth_error entry _ _ E) in B. destruct o as [x|]; [|discriminate].
          exists x. split; [reflexivity | simpl in B; congruence].
        - apply nth_error_None in E. assert (nth_error (map entry l) (k_index k) = None) by (apply nth_error_None; rewrite map_length; exact E). congruence. }
      split.
      + intros ks0 l0 n E H. inversion E; subst ks0 l0. destruct (pget_key_total ks n W H) as [k K].
        destruct (Q n k (find_key_some _ _ _ K)) as [x [E1 E2]]. exists x. simpl. rewrite K, E1. reflexivity.
      + intros n x G. assert (I := go_sub_in _ _ _ _ _ _ G).
        simpl in G. destruct (pget_key ks n) as [k|] eqn:K; [|discriminate].
        destruct (Q n k (find_key_some _ _ _ K)) as [x' [E1 E2]]. rewrite E1 in G. inversion G; subst x'.
        destruct (IHs ks l x eq_refl I (Sx x I)) as [[_ H]|[H _]]; [exact H | congruence].
    - right. split; [exact A|]. intros Cm. destruct (proj1 (complete_iff _) Cm) as [[_ [C1 _]] C2].
      destruct (nth_error l (k_index k)) as [o|] eqn:E.
      + rewrite (map_nth_error entry _ _ E) in C. destruct o as [x|].
        * assert (I := nth_error_In _ _ E). destruct (IHs ks l x eq_refl I (Sx x I)) as [[H _]|[_ H]]; [simpl in C; congruence|].
          apply H. destruct (go_sub_of data ks l lists x W Len I) as [n' G]. exact (C2 _ _ G).
        * destruct (pget_key_wf ks n k W) as [_ [_ [_ Nm]]]; [apply find_key_in; [apply (wf_map _ W) | exact B]|].
          destruct (C1 ks l n eq_refl (nth_error_In _ _ Nm)) as [x G]. simpl in G.
          unfold pget_key in G. rewrite (find_key_in _ (wf_map _ W) n k B), E in G. discriminate.
      + apply nth_error_None in E. assert (nth_error (map entry l) (k_index k) = None) by (apply nth_error_None; rewrite map_length; exact E). congruence. }
  destruct U as [[U1 [U2 U3]]|[U1 U2]]; rewrite U1; cbn [bind]; [|right; auto].
  (* the lists *)
  destruct lists as [[ks ll]|].
  2:{ left. split; [reflexivity|]. apply complete_iff. split.
      - split; [|split]; simpl.
        + intros ds n k E H Q. unfold dict_is_set. simpl. subst data. exact (V2 ds n k eq_refl H Q).
        + exact U2.
        + discriminate.
      - intros [n|n i] x G; [exact (U3 n x G) | discriminate]. }
  destruct Ll as [W Len].
  assert (Sx : forall l x, In l ll -> In (Some x) l -> sound x).
  { intros l x H H'. destruct (go_item_of data subs ks ll l x W Len H H') as [n [i G]]. eapply sound_go; eauto. }
  assert (RA : forall l, In l ll -> run_all (map entry l) = Ok tt /\ (forall o, In o l -> entry o = Ok tt) \/
     (run_all (map entry l) = Error /\ exists o, In o l /\ entry o = Error)).
  { intros l Il. destruct (run_all_spec (map entry l)) as [[A B]|[A B]].
    - intros r Hr. apply in_map_iff in Hr. destruct Hr as [o [<- Ho]]. destruct o as [x|]; [|right; reflexivity].
      destruct (IHl ks ll l x eq_refl Il Ho (Sx l x Il Ho)) as [[H _]|[H _]]; [left; exact H | right; exact H].
    - left. split; [exact A|]. intros o Ho. apply B. apply in_map, Ho.
    - right. split; [exact A|]. apply in_map_iff in B. destruct B as [o [Ho Io]]. exists o. auto. }
  assert (R : forall n k, In (n, k) (ks_map ks) ->
      exists r, nth_error (map (fun l => run_all (map entry l)) ll) (k_index k) = Some r /\ (r = Ok tt \/ r = Error)).
  { intros n k H.
    assert (I : k_index k < length ll).
    { rewrite Len. apply (pget_key_wf _ n k W). apply find_key_in; [apply (wf_map _ W) | exact H]. }
    destruct (nth_error ll (k_index k)) as [l|] eqn:E; [|apply nth_error_None in E; lia].
    exists (run_all (map entry l)). split; [apply (map_nth_error (fun l => run_all (map entry l))); exact E|].
    destruct (RA l (nth_error_In _ _ E)) as [[H1 _]|[H1 _]]; auto. }
  destruct (run_keys_spec _ _ R) as [[A B]|[A [n [k [B C]]]]].
  - left. split; [exact A|].
    assert (Q : forall l o, In l ll -> In o l -> entry o = Ok tt).
    { intros l o Il Io. assert (Il' := Il). apply In_nth_error in Il'. destruct Il' as [i E].
      assert (Ri : i < num_keys ks) by (rewrite <- Len; apply nth_error_Some; congruence).
      destruct (keys_all_in ks W i Ri) as [n [k [Hk Ek]]]. specialize (B n k Hk).
      rewrite Ek, (map_nth_error (fun l => run_all (map entry l)) _ _ E) in B.
      destruct (RA l Il) as [[_ H]|[H _]]; [exact (H o Io) | congruence]. }
    apply complete_iff. split.
    + split; [|split]; simpl.
      * intros ds n k E H Q'. unfold dict_is_set. simpl. subst data. exact (V2 ds n k eq_refl H Q').
      * exact U2.
      * intros ks0 ll0 l o E Il Io. inversion E; subst. specialize (Q l o Il Io). destruct o; [discriminate|].
        simpl in Q. discriminate.
    + intros [n|n i] x G; [exact (U3 n x G)|].
      destruct (go_item_in _ _ _ _ _ _ _ G) as [l [Il Io]]. specialize (Q l (Some x) Il Io). simpl in Q.
      destruct (IHl ks ll l x eq_refl Il Io (Sx l x Il Io)) as [[_ H]|[H _]]; [exact H | congruence].
  - right. split; [exact A|]. intros Cm. destruct (proj1 (complete_iff _) Cm) as [[_ [_ C1]] C2].
    destruct (nth_error ll (k_index k)) as [l|] eqn:E.
    + rewrite (map_nth_error (fun l => run_all (map entry l)) _ _ E) in C.
      assert (Il := nth_error_In _ _ E). destruct (RA l Il) as [[H _]|[_ [o [Io Eo]]]]; [congruence|].
      destruct o as [x|].
      * destruct (IHl ks ll l x eq_refl Il Io (Sx l x Il Io)) as [[H _]|[_ H]]; [simpl in Eo; congruence|].
        apply H. destruct (go_item_of data subs ks ll l x W Len Il Io) as [n' [i G]]. exact (C2 _ _ G).
      * apply (C1 ks ll l None eq_refl Il Io). reflexivity.
    + apply nth_error_None in E.
      assert (nth_error (map (fun l => run_all (map entry l)) ll) (k_index k) = None) by (apply nth_error_None; rewrite map_length; exact E).
      congruence.
Qed.

(** After a successful check every required value can be read. *)
Lemma required_readable (d : dict) p x ds n k t : sound d -> check_required d = Ok tt -> walk d p = Ok x ->
  d_data x = Some ds -> In (n, k) (ks_map (ds_keys ds)) -> k_req k = true -> k_type k = Some t ->
  exists w, get_required t ds k = Ok w /\ dict_get t x n = Ok w.
Proof.
  intros S C W E I R T. destruct (check_required_spec d S) as [[_ H]|[H _]]; [|congruence].
  specialize (H p x W). destruct H as [H _]. specialize (H ds n k E I R).
  assert (L := S p x W). destruct L as [L _]. rewrite E in L. destruct L as [Wk [Len Ty]].
  assert (K : pget_key (ds_keys ds) n = Some k) by (apply find_key_in; [apply (wf_map _ Wk) | exact I]).
  unfold dict_is_set in H. rewrite E in H. unfold is_set in H. rewrite K in H.
  destruct (nth_error (ds_data ds) (k_index k)) as [v|] eqn:N; [|discriminate].
  destruct (held v) as [t'|] eqn:Hv; [|discriminate].
  assert (t' = t) by (specialize (Ty n k v t' K N Hv); congruence). subst t'.
  exists v. unfold get_required, dict_get, get_value. rewrite E, K, N, Hv.
  assert (X : ty_eqb t t = true) by (apply ty_eqb_eq; reflexivity). rewrite X. auto.
Qed.

(** *** New dictionaries *)

Lemma new_dataset_typed ks : wf_keyset ks -> typed_dataset (new_dataset ks).
Proof.
  intros W. unfold typed_dataset, new_dataset. simpl. split; [exact W|]. split; [apply repeat_length|].
  intros n k v t _ N H. apply nth_error_In, repeat_spec in N. subst. discriminate.
Qed.

Lemma new_dict_sound v s l :
  (forall ks, v = Some ks \/ s = Some ks \/ l = Some ks -> wf_keyset ks) -> sound (new_dict v s l).
Proof.
  intros W. apply sound_intro.
  - unfold new_dict, level_ok. simpl. split; [|split].
    + destruct v as [ks|]; [|exact I]. apply new_dataset_typed, W. auto.
    + destruct s as [ks|]; [|exact I]. split; [apply W; auto | apply repeat_length].
    + destruct l as [ks|]; [|exact I]. split; [apply W; auto | apply repeat_length].
  - intros [n|n i] d'.
    + destruct s as [ks|]; simpl; [|discriminate]. destruct (pget_key ks n) as [k|]; [|discriminate].
      destruct (nth_error (repeat None (num_keys ks)) (k_index k)) as [[x|]|] eqn:E; try discriminate.
      apply nth_error_In, repeat_spec in E. discriminate.
    + destruct l as [ks|]; simpl; [|discriminate]. destruct (pget_key ks n) as [k|]; [|discriminate].
      destruct (nth_error (repeat [] (num_keys ks)) (k_index k)) as [x|] eqn:E; [|discriminate].
      apply nth_error_In, repeat_spec in E. subst. destruct i; discriminate.
Qed.

End Doubles.
