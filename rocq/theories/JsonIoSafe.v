(** Reading an arbitrary file, and the histories whose settings can be read back. *)
From Coq Require Import String Ascii Bool NArith ZArith QArith Arith List Lia.
From Verif Require Import KeysModel KeysProofs SettingsKeys DictModel DictProofs SettingsModel SettingsProofs
  JsonModel JsonSpec JsonSpecProofs JsonProofs JsonIoModel JsonIoProofs.
Import ListNotations.
Local Open Scope nat_scope.

Lemma jv_nested_ind (P : jv -> Prop) :
  P JNull -> (forall b, P (JBool b)) -> (forall t, P (JNum t)) -> (forall s, P (JStr s)) ->
  (forall l, (forall v, In v l -> P v) -> P (JArr l)) ->
  (forall l, (forall n v, In (n, v) l -> P v) -> P (JObj l)) -> forall v, P v.
Proof.
  intros A B C E F G. fix IH 1. intros [|b|t|s|l|l]; [exact A|apply B|apply C|apply E|apply F|apply G].
  - induction l as [|x l IHl]; intros v; [intros []|]. intros [H|H]; [rewrite <- H; exact (IH x)|exact (IHl v H)].
  - induction l as [|[m x] l IHl]; intros n v; [intros []|]. intros [H|H]; [injection H as _ H; rewrite <- H; exact (IH x)|exact (IHl n v H)].
Qed.

Section Doubles.
Variable D : Type.
Variable of_int : Z -> D.
Variable dbl : Q -> D.
Variable show : D -> text.
Variable to_float : text -> D.
Notation dict := (dict D).
Notation dataset := (dataset D).
Notation read_obj := (read_obj of_int to_float).
Notation entry := (entry D of_int to_float).
Notation each := (each D).
Notation condition := (condition D).

(** A step of the reader: the result is sound and has the structure of before, or an exception is thrown. *)
Definition safe (d : dict) (r : res dict) : Prop :=
  (exists d', r = Ok d' /\ sound D d' /\ forall p, shape_at D d' p = shape_at D d p) \/ r = Error.

Lemma safe_bind d r f : safe d r -> (forall d', r = Ok d' -> sound D d' -> safe d' (f d')) -> safe d (bind r f).
Proof.
  intros [[d' [-> [S P]]]| ->] H; [|right; reflexivity]. cbn [bind]. destruct (H d' eq_refl S) as [[d'' [E [S' P']]]|E]; [|right; exact E].
  left. exists d''. split; [exact E|]. split; [exact S'|]. intros p. rewrite P'. apply P.
Qed.
Lemma safe_act d a : sound D d -> no_sub D a -> action_sound D a -> snd (act of_int d a) = Ok tt -> safe d (Ok (fst (act of_int d a))).
Proof.
  intros S N A _. left. eexists. split; [reflexivity|]. split; [apply act_sound; assumption|].
  intros p. exact (act_at_shape D of_int [] d a p S N).
Qed.
Lemma safe_set d n i : sound D d -> safe d (set_input of_int d n i).
Proof.
  intros S. destruct i as [i|]; [|right; reflexivity]. assert (A := safe_act d (SetVal n i) S I I). cbn [act] in A. unfold set_input.
  destruct d as [[ds|] ss ll]; [|right; reflexivity]. cbn [dict_set] in *. destruct (set_value_spec D of_int ds n i) as [[k [t [w [l [_ [_ [_ [_ E]]]]]]]]|[_ E]].
  - exact (proj1 (sound_level _ _ S)).
  - rewrite E in *. apply A. reflexivity.
  - rewrite E. right. reflexivity.
Qed.
Lemma safe_scalar d n v : sound D d -> safe d (read_scalar of_int to_float d n v).
Proof.
  intros S. unfold read_scalar. destruct v; try (destruct (_ || _); [right; reflexivity|apply safe_set; exact S]).
  destruct (text_eqb (text_of s) _); [left; exists d; auto|]. destruct (text_eqb n _); [destruct (method_of _); [apply safe_set; exact S|right; reflexivity]|].
  destruct (text_eqb n _); [destruct (grid_of _); [apply safe_set; exact S|right; reflexivity]|]. apply safe_set. exact S.
Qed.
Lemma safe_append d n c : sound D d -> sound D c -> safe d (let '(d', r) := dict_append d n (Some c) in bind r (fun _ => Ok d')).
Proof.
  intros S Sc. assert (A := safe_act d (Append n (Some c)) S I). cbn [act action_sound] in A. specialize (A ltac:(intros y E; injection E as <-; exact Sc)).
  destruct d as [v ss [[ks ll]|]]; [|right; reflexivity]. cbn [dict_append] in *. destruct (pget_key ks n) as [k|] eqn:K; [|right; reflexivity].
  destruct (sound_level _ _ S) as [_ [_ [W L]]]. cbn [d_lists] in *. assert (R : k_index k < length ll) by (rewrite L; apply (pget_key_wf ks n k W K)).
  destruct (nth_error ll (k_index k)) as [l|] eqn:E; [|apply nth_error_None in E; lia]. destruct (set_nth_some (k_index k) (l ++ [Some c]) ll R) as [l' E']. rewrite E' in *. apply A. reflexivity.
Qed.
Lemma condition_sound : sound D condition.
Proof. apply (good_is D (Some ConditionSettings_Values) None None (Ok condition)); [apply good_new'; [apply wf_ConditionSettings_Values|exact I|exact I]|reflexivity]. Qed.
Lemma safe_each {A} (f : dict -> A -> res dict) l : (forall x d, In x l -> sound D d -> safe d (f d x)) -> forall d, sound D d -> safe d (each f d l).
Proof.
  induction l as [|x l IH]; intros H d S; cbn [JsonIoProofs.each]; [left; exists d; auto|].
  apply safe_bind; [apply H; [left; reflexivity|exact S]|]. intros d' _ S'. apply IH; [|exact S']. intros y e I. apply H. right. exact I.
Qed.

Lemma read_obj_safe : forall v d, sound D d -> safe d (read_obj v d).
Proof.
  assert (G : forall v, (forall d, sound D d -> safe d (read_obj v d)) /\ forall w, In w (match v with JArr l => l | _ => [] end) -> forall d, sound D d -> safe d (read_obj w d)).
  { apply jv_nested_ind; try (intros; split; [intros d S; right; reflexivity|intros w []]).
    - intros l H. split; [intros d S; right; reflexivity|]. intros w I. apply (proj1 (H w I)).
    - intros l H. split; [|intros w []]. intros d S. rewrite read_obj_each. apply safe_each; [|exact S]. intros [n w] e I Se. destruct (H n w I) as [H1 H2].
      unfold JsonIoProofs.entry. cbn [fst snd]. destruct w as [|b|t|s|[|i items]|o]; try (apply safe_scalar; exact Se).
      + right. reflexivity.
      + destruct i as [|b|t|s|a|o]; try (apply safe_set; exact Se). destruct (has_list e (text_of n)); [|right; reflexivity].
        apply safe_each; [|exact Se]. intros i e' Ii Se'. unfold add_item. change create_condition_settings with (Ok condition). cbn [bind].
        destruct (H2 i Ii condition condition_sound) as [[c [-> [Sc _]]]| ->]; [|right; reflexivity]. cbn [bind]. apply safe_append; assumption.
      + destruct (go e (Sub (text_of n))) as [x| | |] eqn:Gx; cbn [bind].
        * destruct (H1 x (sound_go _ _ _ _ Se Gx)) as [[x' [-> [Sx Px]]]| ->]; cbn [bind]; [|right; reflexivity]. left. eexists. split; [reflexivity|]. split.
          -- apply sound_intro; [apply put_level, sound_level, Se|]. intros s' y Hy.
             destruct (go_put_cases D e (Sub (text_of n)) s' x' y (sound_level _ _ Se) (ex_intro _ x Gx) Hy) as [-> | E]; [exact Sx|exact (sound_go _ _ _ _ Se E)].
          -- intros [|m p]; unfold shape_at; cbn [map walk bind]; [rewrite put_shape; reflexivity|]. destruct (step_eq_dec (Sub m) (Sub (text_of n))) as [E|E].
             ++ injection E as ->. rewrite (go_put_same D e _ x x' Gx), Gx. cbn [bind]. apply Px.
             ++ rewrite (go_put_other D e _ (Sub m) x' (sound_level _ _ Se) E). reflexivity.
        * right. reflexivity.
        * exfalso. cbn [go] in Gx. destruct (d_subs e) as [[ks l']|]; [|discriminate]. destruct (pget_key ks (text_of n)) as [k|]; [|discriminate]. destruct (nth_error l' (k_index k)) as [[?|]|]; discriminate.
        * exfalso. destruct (sound_level _ _ Se) as [_ [L _]]. cbn [go] in Gx. destruct (d_subs e) as [[ks l']|]; [|discriminate]. destruct L as [W L]. destruct (pget_key ks (text_of n)) as [k|] eqn:K; [|discriminate].
          destruct (nth_error l' (k_index k)) as [[?|]|] eqn:E; try discriminate. apply nth_error_None in E. assert (k_index k < num_keys ks) by apply (pget_key_wf ks _ k W K). lia. }
  intros v. exact (proj1 (G v)).
Qed.

(** *** Histories *)

(** A value that was set stays set. *)
Lemma set_stays (ds : dataset) n i m : is_set ds m = Ok true -> is_set (fst (set_value of_int ds n i)) m = Ok true.
Proof.
  intros H. assert (St : forall j v, held v <> None -> is_set (fst (store ds j v)) m = Ok true).
  { intros j v Hv. unfold store. destruct (set_nth j v (ds_data ds)) as [l|] eqn:E; [|exact H]. cbn [fst]. unfold is_set in *. cbn [ds_keys ds_data].
    destruct (pget_key (ds_keys ds) m) as [k|]; [|discriminate]. rewrite (set_nth_get _ _ _ _ _ E). destruct (k_index k =? j); [|exact H]. destruct (held v); [reflexivity|contradiction Hv; reflexivity]. }
  unfold set_value. destruct (pget_key (ds_keys ds) n) as [k|]; [|exact H].
  destruct i; repeat match goal with |- context [if ?b then _ else _] => destruct b end; first [exact H|apply St; discriminate].
Qed.
Lemma act_at_stays q : forall d a p m, sound D d -> no_sub D a -> is_set_at D d (map Sub p) m = Ok true -> is_set_at D (fst (act_at of_int d q a)) (map Sub p) m = Ok true.
Proof.
  induction q as [|s q IH]; intros d a p m S N H.
  - destruct p as [|n p]; unfold is_set_at in *; cbn [map walk bind] in *.
    + destruct a as [n v|n x|n x]; [|destruct N|]; cbn [act_at act].
      * unfold dict_is_set in *. destruct d as [[ds|] ss ll]; [|discriminate H]. cbn [d_data] in H. cbn [dict_set]. assert (G := set_stays ds n v m H). destruct (set_value of_int ds n v) as [ds' r]. exact G.
      * unfold dict_is_set in *. destruct d as [v ss [[ks ll]|]]; [|exact H]. cbn [dict_append]. destruct (pget_key ks n) as [k|]; [|exact H]. destruct (nth_error ll (k_index k)) as [l|]; [|exact H]. destruct (set_nth (k_index k) (l ++ [x]) ll); exact H.
    + destruct (act_shape D of_int d a N) as [_ C]. cbn [act_at]. rewrite C. exact H.
  - cbn [act_at]. destruct (go d s) as [d'| | |] eqn:G; try exact H. assert (S' := sound_go _ _ _ _ S G). specialize (IH d' a).
    destruct (act_at of_int d' q a) as [d'' r]. cbn [fst] in *. destruct p as [|n p]; unfold is_set_at in *; cbn [map walk bind] in *.
    + unfold dict_is_set in *. rewrite put_data. exact H.
    + destruct (step_eq_dec (Sub n) s) as [E|E].
      * subst s. rewrite (go_put_same D d (Sub n) d' d'' G). rewrite G in H. cbn [bind] in *. apply (IH p m S' N H).
      * rewrite (go_put_other D d s (Sub n) d'' (sound_level _ _ S) E). exact H.
Qed.
Lemma run_stays ops : forall d p m, sound D d -> Forall (user_op D) ops -> is_set_at D d (map Sub p) m = Ok true -> is_set_at D (run of_int d ops) (map Sub p) m = Ok true.
Proof.
  unfold run. induction ops as [|op ops IH]; intros d p m S F H; [exact H|]. inversion F as [|? ? [A B] F']; subst. cbn [fold_left]. apply IH; [apply act_at_sound; assumption|exact F'|]. apply act_at_stays; assumption.
Qed.

(** *** The settings of a history *)
Lemma pair_inv {A B} (a a' : A) (b b' : B) : (a, b) = (a', b') -> a = a' /\ b = b'.
Proof. intros H. injection H. auto. Qed.
Lemma some_inv {A} (a a' : A) : Some a = Some a' -> a = a'.
Proof. intros H. injection H. auto. Qed.
Lemma ok_inv {A} (a a' : A) : Ok a = Ok a' -> a = a'.
Proof. intros H. injection H. auto. Qed.
Definition leaf_shape (ks : keyset) : option keyset * option keyset * option keyset := (Some ks, None, None).
Lemma leaf_inv (x : dict) ks : shape D x = leaf_shape ks -> exists ds, x = Dict (Some ds) None None /\ ds_keys ds = ks.
Proof.
  unfold leaf_shape. generalize ks. clear ks. intros ks. destruct x as [[ds|] [[? ?]|] [[? ?]|]]; unfold shape; cbn [d_data d_subs d_lists option_map fst]; intros H; try discriminate H; apply pair_inv in H; destruct H as [H _]; apply pair_inv in H; destruct H as [H _]; apply some_inv in H; exists ds; split; [reflexivity|exact H].
Qed.
Lemma is_set_nth (ds : dataset) n k : pget_key (ds_keys ds) n = Some k ->
  is_set ds n = match nth_error (ds_data ds) (k_index k) with Some v => Ok (match held v with Some _ => true | None => false end) | None => Undefined end.
Proof. intros K. unfold is_set. rewrite K. destruct (nth_error (ds_data ds) (k_index k)) as [v|]; [destruct v; reflexivity|reflexivity]. Qed.
Lemma held_none (v : value D) : held v = None -> v = Unset.
Proof. destruct v; try discriminate. reflexivity. Qed.
Lemma leaf_compat (x0 x : dict) ks : shape D x0 = leaf_shape ks -> shape D x = leaf_shape ks -> level_ok D x0 -> level_ok D x -> enum_names ks ->
  (forall ds v, d_data x = Some ds -> In v (ds_data ds) -> survives D of_int show to_float v) ->
  (forall m, dict_is_set x0 m = Ok true -> dict_is_set x m = Ok true) -> compat D of_int show to_float x0 x.
Proof.
  intros S0 S1 L0 L1 E V St. destruct (leaf_inv _ _ S0) as [a [-> Ka]]. destruct (leaf_inv _ _ S1) as [b [-> Kb]]. destruct L0 as [Ta _]. destruct L1 as [Tb _]. cbn [d_data] in Ta, Tb.
  constructor; [|intros n y0 y H; discriminate H|intros n i y H; discriminate H].
  split; [|split; exact I]. cbn [d_data]. split; [congruence|]. split; [rewrite Kb, <- Ka; apply Ta|]. split; [exact Tb|]. split; [rewrite Kb; exact E|]. split; [intros v; apply (V b v eq_refl)|].
  intros i Hi. assert (R : i < num_keys ks) by (rewrite <- Kb, <- (proj1 (proj2 Tb)); apply nth_error_Some; congruence).
  assert (W : wf_keyset ks) by (rewrite <- Kb; apply Tb). destruct (keys_all_in ks W i R) as [n [k [In' <-]]]. destruct (key_in ks n k W In') as [K _].
  assert (Ea : pget_key (ds_keys a) n = Some k) by (rewrite Ka; exact K). assert (Eb : pget_key (ds_keys b) n = Some k) by (rewrite Kb; exact K).
  specialize (St n). unfold dict_is_set in St. cbn [d_data] in St. rewrite (is_set_nth a n k Ea), (is_set_nth b n k Eb), Hi in St. cbn [held] in St.
  destruct (nth_error (ds_data a) (k_index k)) as [v|] eqn:N; [|apply nth_error_None in N; rewrite (proj1 (proj2 Ta)), Ka in N; lia].
  destruct (held v) eqn:Hv; [discriminate (St eq_refl)|]. rewrite (held_none v Hv). reflexivity.
Qed.
Lemma leaf_printable (x : dict) ks : shape D x = leaf_shape ks -> plain_namesb ks = true ->
  (forall ds v, d_data x = Some ds -> In v (ds_data ds) -> value_printable D show v) -> printable D show x.
Proof.
  intros S N V p y W. destruct (leaf_inv _ _ S) as [ds [-> K]]. destruct p as [|[n|n i] p]; [|discriminate W|discriminate W]. injection W as <-.
  split; [|split; [intros ? ? H; discriminate H|intros ? ? H; discriminate H]]. intros ds' H. injection H as <-. split; [rewrite K; apply plain_namesb_ok, N|intros v; apply (V ds v eq_refl)].
Qed.

(** The contents that can be saved: values that are written as JSON and survive,
    and a list of conditions made by the factory that is not empty. *)
Definition values_are (P : value D -> Prop) (s : dict) : Prop :=
  forall p x ds v, walk s p = Ok x -> d_data x = Some ds -> In v (ds_data ds) -> P v.
Definition conditions_made (s : dict) : Prop :=
  forall ks ll l o, d_lists s = Some (ks, ll) -> In l ll -> In o l -> exists c, o = Some c /\ shape D c = leaf_shape ConditionSettings_Values.
Definition saveable (s : dict) : Prop :=
  values_are (value_printable D show) s /\ values_are (survives D of_int show to_float) s /\ conditions_made s /\
  forall ks ll l, d_lists s = Some (ks, ll) -> In l ll -> l <> [].

Definition leaf_keys : list (text * keyset) :=
  [(lit "general_settings", GeneralSettings_Values); (lit "background_grid_settings", BackgroundGridSettings_Values);
   (lit "trimmed_quadrature_rule_settings", TrimmedQuadratureRuleSettings_Values); (lit "non_trimmed_quadrature_rule_settings", NonTrimmedQuadratureRuleSettings_Values)].
Lemma sub_names : forallb (fun e => existsb (fun l => text_eqb (fst e) (fst l)) leaf_keys) (ks_map MainSettings_SubDict) = true.
Proof. vm_compute. reflexivity. Qed.
Lemma sub_leaf (s : dict) n k : settings_structure D s -> In (n, k) (ks_map MainSettings_SubDict) ->
  exists x ks, go s (Sub n) = Ok x /\ In (n, ks) leaf_keys /\ shape D x = leaf_shape ks.
Proof.
  intros [_ T] H. assert (A := proj1 (forallb_forall _ _) sub_names _ H). cbn [fst] in A. apply existsb_exists in A. destruct A as [[m ks] [I E]]. apply text_eqb_eq in E. cbn [fst] in E. subst m.
  assert (G : shape_at D s [n] = Ok (leaf_shape ks)).
  { destruct T as [T1 [T2 [T3 T4]]]. unfold leaf_shape. destruct I as [I | [I | [I | [I | []]]]]; apply pair_inv in I; destruct I as [<- <-]; assumption. }
  unfold shape_at in G. cbn [map walk] in G. destruct (go s (Sub n)) as [x| | |]; try discriminate G. cbn [bind] in G. apply ok_inv in G. exists x, ks. repeat split; [exact I|]. unfold leaf_shape. exact G.
Qed.
Definition enum_namesb (ks : keyset) : bool :=
  forallb (fun e => Bool.eqb (match k_type (snd e) with Some TMethod => true | _ => false end) (text_eqb (fst e) (lit "integration_method")) &&
                    Bool.eqb (match k_type (snd e) with Some TGrid => true | _ => false end) (text_eqb (fst e) (lit "grid_type"))) (ks_map ks).
Lemma enum_namesb_ok ks : enum_namesb ks = true -> enum_names ks.
Proof.
  intros H n k I. assert (A := proj1 (forallb_forall _ _) H _ I). cbn [fst snd] in A. apply andb_true_iff in A. destruct A as [A B]. apply eqb_prop in A. apply eqb_prop in B.
  rewrite <- !text_eqb_eq, <- A, <- B. split; split; intros E; try (rewrite E; reflexivity); destruct (k_type k) as [[]|]; try discriminate E; reflexivity.
Qed.
Lemma leaf_checks : forall n ks, In (n, ks) leaf_keys -> enum_names ks /\ plain_namesb ks = true /\ wf_keyset ks.
Proof.
  intros n ks I. assert (A : forallb (fun e => enum_namesb (snd e) && plain_namesb (snd e) && wf_keysetb (snd e)) leaf_keys = true) by (vm_compute; reflexivity).
  assert (B := proj1 (forallb_forall _ _) A _ I). cbn [snd] in B. rewrite !andb_true_iff in B. destruct B as [[B1 B2] B3]. split; [apply enum_namesb_ok, B1|]. split; [exact B2|apply wf_keysetb_ok, B3].
Qed.
Lemma condition_checks : enum_names ConditionSettings_Values /\ plain_namesb ConditionSettings_Values = true.
Proof. split; [apply enum_namesb_ok; vm_compute; reflexivity|vm_compute; reflexivity]. Qed.
Lemma main_checks : plain_namesb MainSettings_SubDict = true /\ plain_namesb MainSettings_List = true.
Proof. split; vm_compute; reflexivity. Qed.

Lemma main_inv (s : dict) : settings_structure D s -> exists l ll, s = Dict None (Some (MainSettings_SubDict, l)) (Some (MainSettings_List, ll)).
Proof.
  intros [T _]. unfold shape_at in T. cbn [map walk bind] in T. apply ok_inv in T. apply pair_inv in T. destruct T as [T T3]. apply pair_inv in T. destruct T as [T1 T2]. revert T2 T3. generalize MainSettings_SubDict MainSettings_List. intros ka kb T2 T3. destruct s as [[ds|] [[ks l]|] [[kl ll]|]]; try discriminate. cbn [d_data d_subs d_lists option_map fst] in T2, T3. exists l, ll.
  apply some_inv in T2. apply some_inv in T3. rewrite T2, T3. reflexivity.
Qed.
Lemma no_null (s : dict) l ll : sound D s -> settings_structure D s -> s = Dict None (Some (MainSettings_SubDict, l)) ll -> ~ In None l.
Proof.
  intros S T -> H. apply In_nth_error in H. destruct H as [i Hi]. destruct (sound_level _ _ S) as [_ [[W L] _]].
  assert (R : i < num_keys MainSettings_SubDict) by (rewrite <- L; apply nth_error_Some; congruence).
  destruct (keys_all_in _ W i R) as [n [k [In' <-]]]. destruct (sub_leaf _ n k T In') as [x [ks [G _]]]. destruct (key_in _ n k W In') as [K _]. cbn [go d_subs] in G. rewrite K, Hi in G. discriminate G.
Qed.

Lemma saved_printable (s : dict) : sound D s -> settings_structure D s -> values_are (value_printable D show) s -> conditions_made s -> printable D show s.
Proof.
  intros S T V C p y W. destruct main_checks as [M1 M2]. destruct (main_inv s T) as [l [ll E]].
  destruct p as [|st p].
  { injection W as <-. split; [|split].
    - intros ds H. rewrite E in H. discriminate H.
    - intros ks m H. rewrite E in H. cbn [d_subs] in H. apply some_inv, pair_inv in H. destruct H as [<- _]. apply plain_namesb_ok, M1.
    - intros ks m H. split.
      + rewrite E in H. cbn [d_lists] in H. apply some_inv, pair_inv in H. destruct H as [<- _]. apply plain_namesb_ok, M2.
      + intros l' o I Io. destruct (C ks m l' o H I Io) as [c [-> _]]. discriminate. }
  cbn [walk] in W. destruct (go s st) as [x| | |] eqn:G; try discriminate W. cbn [bind] in W.
  assert (Vx : forall ds v, d_data x = Some ds -> In v (ds_data ds) -> value_printable D show v).
  { intros ds v H I. apply (V [st] x ds v); [cbn [walk]; rewrite G; reflexivity|exact H|exact I]. }
  assert (P : printable D show x); [|exact (P p y W)].
  destruct st as [n|n i].
  - assert (K : exists k, In (n, k) (ks_map MainSettings_SubDict)).
    { rewrite E in G. cbn [go d_subs] in G. destruct (pget_key MainSettings_SubDict n) as [k|] eqn:K; [|discriminate G]. exists k. exact (find_key_some _ _ _ K). }
    destruct K as [k K]. destruct (sub_leaf s n k T K) as [x' [ks [G' [I Sh]]]]. rewrite G in G'. injection G' as <-. destruct (leaf_checks n ks I) as [_ [N _]]. exact (leaf_printable x ks Sh N Vx).
  - rewrite E in G. destruct (go_item_in D _ _ _ _ _ _ _ G) as [m [Im Ix]]. destruct (C MainSettings_List ll m (Some x)) as [c [H Sh]]; [rewrite E; reflexivity|exact Im|exact Ix|]. injection H as <-.
    exact (leaf_printable x _ Sh (proj2 condition_checks) Vx).
Qed.

Lemma saved_compat d0 (s : dict) : sound D d0 -> settings_structure D d0 -> sound D s -> settings_structure D s -> saveable s ->
  d_lists d0 = Some (MainSettings_List, repeat [] (num_keys MainSettings_List)) ->
  (forall p m, is_set_at D d0 (map Sub p) m = Ok true -> is_set_at D s (map Sub p) m = Ok true) ->
  compat D of_int show to_float d0 s.
Proof.
  intros S0 T0 S T [_ [V [C Ne]]] L0 St. destruct (main_inv d0 T0) as [a [la E0]]. destruct (main_inv s T) as [b [lb E]].
  destruct (sound_level _ _ S) as [_ [Ls Ll]]. rewrite E in Ls, Ll. cbn [d_subs d_lists] in Ls, Ll. destruct Ls as [W Lb]. destruct Ll as [W' Lb'].
  assert (La : length a = num_keys MainSettings_SubDict) by (destruct (sound_level _ _ S0) as [_ [L _]]; rewrite E0 in L; cbn [d_subs] in L; apply L).
  assert (Ela : la = repeat [] (num_keys MainSettings_List)) by (rewrite E0 in L0; cbn [d_lists] in L0; apply some_inv, pair_inv in L0; apply L0).
  constructor.
  - unfold level_compat. rewrite E0, E. cbn [d_data d_subs d_lists]. split; [exact I|]. split.
    + split; [reflexivity|]. split; [exact W|]. split; [exact La|]. split; [exact Lb|]. split; [exact (no_null d0 a _ S0 T0 E0)|exact (no_null s b _ S T E)].
    + split; [reflexivity|]. split; [exact W'|]. split; [exact Ela|]. split; [exact Lb'|]. intros l Il. split; [apply (Ne MainSettings_List lb l); [rewrite E; reflexivity|exact Il]|]. intros N. destruct (C MainSettings_List lb l None) as [c [X _]]; [rewrite E; reflexivity|exact Il|exact N|]. discriminate X.
  - intros n x0 x G0 G.
    assert (K : exists k, In (n, k) (ks_map MainSettings_SubDict)).
    { rewrite E in G. cbn [go d_subs] in G. destruct (pget_key MainSettings_SubDict n) as [k|] eqn:K; [|discriminate G]. exists k. exact (find_key_some _ _ _ K). }
    destruct K as [k K]. destruct (sub_leaf s n k T K) as [x' [ks [G' [I Sh]]]]. rewrite G in G'. injection G' as <-.
    destruct (sub_leaf d0 n k T0 K) as [x' [ks' [G' [I' Sh0]]]]. rewrite G0 in G'. injection G' as <-.
    assert (N : NoDup (map fst leaf_keys)) by (apply nodupb_ok; vm_compute; reflexivity).
    assert (ks' = ks).
    { clear - I I' N. revert I I' N. generalize leaf_keys. induction l as [|[m e] l IH]; [intros []|]. intros [A|A] [B|B] N; inversion N; subst; [|exfalso; apply H1; apply pair_inv in A; destruct A as [-> _]; apply (in_map fst) in B; exact B|exfalso; apply H1; apply pair_inv in B; destruct B as [-> _]; apply (in_map fst) in A; exact A|apply IH; assumption].
      apply pair_inv in A. apply pair_inv in B. destruct A as [_ <-]. destruct B as [_ <-]. reflexivity. }
    subst ks'. destruct (leaf_checks n ks I) as [En _].
    apply (leaf_compat x0 x ks Sh0 Sh); [exact (sound_level _ _ (sound_go _ _ _ _ S0 G0))|exact (sound_level _ _ (sound_go _ _ _ _ S G))|exact En| |].
    + intros ds v H J. apply (V [Sub n] x ds v); [cbn [walk]; rewrite G; reflexivity|exact H|exact J].
    + intros m H. assert (Q := St [n] m). unfold is_set_at in Q. cbn [map walk] in Q. rewrite G0, G in Q. cbn [bind] in Q. exact (Q H).
  - intros n i x G. assert (Gs := G). rewrite E in G. destruct (go_item_in D _ _ _ _ _ _ _ G) as [m [Im Ix]]. destruct (C MainSettings_List lb m (Some x)) as [c [H Sh]]; [rewrite E; reflexivity|exact Im|exact Ix|]. injection H as <-.
    apply (leaf_compat condition x ConditionSettings_Values); [reflexivity|exact Sh|exact (sound_level _ _ condition_sound)|exact (sound_level _ _ (sound_go _ _ _ _ S Gs))|exact (proj1 condition_checks)| |].
    + intros ds v H J. apply (V [Item n i] x ds v); [cbn [walk]; rewrite Gs; reflexivity|exact H|exact J].
    + intros k H. exfalso. unfold dict_is_set, is_set, condition, new_dict in H. cbn [d_data option_map new_dataset ds_keys ds_data] in H. destruct (pget_key ConditionSettings_Values k) as [ke|] eqn:K; [|discriminate H].
      destruct (nth_error (repeat Unset (num_keys ConditionSettings_Values)) (k_index ke)) as [v|] eqn:N; [|discriminate H]. apply nth_error_In, repeat_spec in N. subst v. discriminate H.
Qed.

Lemma created_lists d : create_settings dbl = Ok d -> d_lists d = Some (MainSettings_List, repeat [] (num_keys MainSettings_List)).
Proof. intros E. vm_compute in E. inversion E; subst. vm_compute. reflexivity. Qed.

Lemma saved_and_read d ops : create_settings dbl = Ok d -> Forall (user_op D) ops -> saveable (run of_int d ops) ->
  exists t, print_dict show (run of_int d ops) = Ok t /\ read_settings of_int dbl to_float t = Ok (run of_int d ops).
Proof.
  intros E F H. assert (S0 : sound D d) by exact (good_is D _ _ _ _ d (create_settings_good D of_int dbl) E). destruct (history_structure D of_int dbl d ops E F) as [S T].
  destruct (print_dict_ok D show _ S (saved_printable _ S T (proj1 H) (proj1 (proj2 (proj2 H))))) as [t [P J]]. exists t. split; [exact P|]. unfold read_settings. rewrite (parse_complete _ _ J), E. cbn [bind].
  apply round_trip. apply saved_compat; try assumption; [apply (created_structure D dbl d E)|apply created_lists, E|]. intros p m. apply run_stays; assumption.
Qed.

(** Whatever the file contains, reading it ends with settings of the declared
    structure, or throws. *)
Lemma read_settings_safe t : (exists d, read_settings of_int dbl to_float t = Ok d /\ sound D d /\ settings_structure D d) \/ read_settings of_int dbl to_float t = Error.
Proof.
  unfold read_settings. destruct (parse t) as [v|]; [|right; reflexivity]. destruct (create_settings_good D of_int dbl) as [d [E [S _]]]. rewrite E. cbn [bind].
  destruct (read_obj_safe v d S) as [[d' [R [S' P]]]|R]; [|right; exact R]. left. exists d'. split; [exact R|]. split; [exact S'|]. unfold settings_structure. rewrite !P. apply (created_structure D dbl d E).
Qed.

(** Settings without conditions can be written, but not be read. *)
Lemma each_error l : forall d n, sound D d -> In (n, JArr []) l -> each entry d l = Error.
Proof.
  induction l as [|[m w] l IH]; intros d n S; [intros []|]. intros [H|H].
  - apply pair_inv in H. destruct H as [-> ->]. reflexivity.
  - cbn [JsonIoProofs.each]. assert (A : safe d (entry d (m, w))).
    { assert (B := read_obj_safe (JObj [(m, w)]) d S). rewrite read_obj_each in B. cbn [JsonIoProofs.each] in B. destruct (entry d (m, w)); exact B. }
    destruct A as [[d' [-> [S' _]]]| ->]; [|reflexivity]. cbn [bind]. exact (IH d' n S' H).
Qed.
Lemma no_conditions d ops : create_settings dbl = Ok d -> Forall (user_op D) ops ->
  values_are (value_printable D show) (run of_int d ops) -> conditions_made (run of_int d ops) ->
  (exists ks ll, d_lists (run of_int d ops) = Some (ks, ll) /\ In [] ll) ->
  exists t, print_dict show (run of_int d ops) = Ok t /\ read_settings of_int dbl to_float t = Error.
Proof.
  intros E F V C [ks [ll [L I]]]. assert (S0 : sound D d) by exact (good_is D _ _ _ _ d (create_settings_good D of_int dbl) E). destruct (history_structure D of_int dbl d ops E F) as [S T].
  destruct (print_dict_ok D show _ S (saved_printable _ S T V C)) as [t [P J]]. exists t. split; [exact P|]. unfold read_settings. rewrite (parse_complete _ _ J), E. cbn [bind].
  destruct (sound_level _ _ S) as [_ [_ W]]. revert L W. generalize (run of_int d ops). intros s L W. rewrite L in W. destruct W as [W Len]. rewrite read_obj_each.
  apply In_nth_error in I. destruct I as [i Hi]. destruct (keys_all_in ks W i) as [n [k [In' <-]]]; [rewrite <- Len; apply nth_error_Some; congruence|].
  apply (each_error _ _ (chars_of n) S0). destruct s as [data subs lists]. cbn [d_lists] in L. subst lists. cbn [fields]. rewrite !in_app_iff. right. right.
  apply in_map_iff. exists (n, k). split; [|exact In']. cbn [fst snd]. f_equal. apply nth_error_nth. rewrite nth_error_map, Hi. reflexivity.
Qed.

(** A check for all values. *)
Fixpoint all_values (f : value D -> bool) (d : dict) : bool :=
  match d with
  | Dict data subs lists =>
      (match data with None => true | Some ds => forallb f (ds_data ds) end) &&
      (match subs with None => true | Some (_, l) => forallb (fun o => match o with None => true | Some x => all_values f x end) l end) &&
      (match lists with None => true | Some (_, ll) => forallb (fun l => forallb (fun o => match o with None => true | Some x => all_values f x end) l) ll end)
  end.
Lemma all_values_ok (f : value D -> bool) (P : value D -> Prop) : (forall v, f v = true -> P v) -> forall d, all_values f d = true -> values_are P d.
Proof.
  intros H d A p. revert d A. induction p as [|s p IH]; intros d A x ds v W E I; cbn [walk] in W.
  - injection W as <-. destruct d as [data subs lists]. cbn [d_data] in E. subst data. cbn [all_values] in A. rewrite !andb_true_iff in A. destruct A as [[A _] _]. apply H. rewrite forallb_forall in A. exact (A v I).
  - destruct (go d s) as [d'| | |] eqn:G; cbn [bind] in W; try discriminate W. apply (IH d') with (x := x) (ds := ds); try assumption. clear - A G.
    destruct d as [data subs lists]. cbn [all_values] in A. rewrite !andb_true_iff in A. destruct A as [[_ B] C].
    destruct s as [n|n i]; cbn [go d_subs d_lists] in G.
    + destruct subs as [[ks l]|]; [|discriminate]. destruct (pget_key ks n) as [k|]; [|discriminate].
      destruct (nth_error l (k_index k)) as [[y|]|] eqn:N; try discriminate. inversion G; subst. exact (forallb_nth _ _ _ _ B N).
    + destruct lists as [[ks ll]|]; [|discriminate]. destruct (pget_key ks n) as [k|]; [|discriminate].
      destruct (nth_error ll (k_index k)) as [l|] eqn:N; [|discriminate].
      destruct (nth_error l i) as [[y|]|] eqn:M; try discriminate. inversion G; subst. exact (forallb_nth _ _ _ _ (forallb_nth _ _ _ _ C N) M).
Qed.
End Doubles.
