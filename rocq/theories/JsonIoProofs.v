(** Proofs about the settings files: reading what was written gives the settings back. *)
From Coq Require Import String Ascii Bool NArith ZArith QArith Arith List Lia.
From Coq Require Decimal DecimalN.
From Verif Require Import KeysModel KeysProofs SettingsKeys DictModel DictProofs SettingsModel SettingsProofs
  JsonModel JsonSpec JsonProofs JsonIoModel.
Import ListNotations.
Local Open Scope nat_scope.

Lemma text_of_chars t : text_of (chars_of t) = t.
Proof. unfold text_of, chars_of. rewrite map_map. erewrite map_ext; [apply map_id|]. intros a. apply ascii_N_embedding. Qed.

Lemma uint_of_show u : uint_of (show_uint u) = u.
Proof. induction u; cbn [show_uint uint_of]; rewrite ?IHu; reflexivity. Qed.
Lemma show_index_int n : is_integer (show_index n) = true.
Proof.
  unfold is_integer, show_index. generalize (N.to_uint n). intros u. induction u; cbn [show_uint forallb]; rewrite ?IHu; reflexivity.
Qed.
Lemma int_of_show n : int_of (show_index n) = Z.of_N n.
Proof.
  assert (A := uint_of_show (N.to_uint n)). assert (B := DecimalN.Unsigned.of_to n). unfold show_index, int_of in *.
  destruct (N.to_uint n) eqn:E; cbn [show_uint] in *.
  1: { destruct n as [|p]; [discriminate E|]. exfalso. exact (DecimalPos.Unsigned.to_uint_nonnil p E). }
  all: match goal with |- context [Ascii.eqb ?a ?b] => change (Ascii.eqb a b) with false end; cbv iota; rewrite A, B; reflexivity.
Qed.

Section Doubles.
Variable D : Type.
Variable of_int : Z -> D.
Variable dbl : Q -> D.
Variable show : D -> text.
Variable to_float : text -> D.
Notation dict := (dict D).
Notation dataset := (dataset D).
Notation value := (value D).
Notation read_obj := (read_obj of_int to_float).
Notation argument := (argument of_int to_float).
Notation number := (number to_float).

(** The number that Python makes of a text, as double. *)
Definition double_of (t : text) : D := match number t with inl z => of_int z | inr d => d end.

(** Values that survive: strings that are not the note for unset values,
    64 bit indices, doubles that are recovered from their text, and for single
    doubles (not the ones of points) no negative or huge integers. *)
Definition survives (v : value) : Prop :=
  match v with
  | Unset => True
  | VPoint a b c => double_of (show a) = a /\ double_of (show b) = b /\ double_of (show c) = c
  | VVec a b c => (a < 2 ^ 64 /\ b < 2 ^ 64 /\ c < 2 ^ 64)%N
  | VIndex n => (n < 2 ^ 64)%N
  | VDouble d => double_of (show d) = d /\ forall z, number (show d) = inl z -> (0 <= z < 2 ^ 64)%Z
  | VString s => s <> lit "Not Set."
  | _ => True
  end.

(** The enumerations are the entries with these names. *)
Definition enum_names (ks : keyset) : Prop := forall n k, In (n, k) (ks_map ks) ->
  (k_type k = Some TMethod <-> n = lit "integration_method") /\ (k_type k = Some TGrid <-> n = lit "grid_type").

Lemma text_eqb_refl t : text_eqb t t = true.
Proof. apply text_eqb_eq. reflexivity. Qed.
Lemma text_neqb a b : a <> b -> text_eqb a b = false.
Proof. intros H. destruct (text_eqb a b) eqn:E; [|reflexivity]. apply text_eqb_eq in E. contradiction. Qed.

Lemma number_index n : number (show_index n) = inl (Z.of_N n).
Proof. unfold number. rewrite show_index_int, int_of_show. reflexivity. Qed.
Lemma load_index_show n : (n < 2 ^ 64)%N -> load_index to_float (JNum (show_index n)) = Some n.
Proof.
  intros H. unfold load_index. rewrite number_index. assert (0 <= Z.of_N n < 2 ^ 64)%Z by (change (2 ^ 64)%Z with (Z.of_N (2 ^ 64)); lia).
  replace (0 <=? Z.of_N n)%Z with true by (symmetry; apply Z.leb_le; lia). replace (Z.of_N n <? 2 ^ 64)%Z with true by (symmetry; apply Z.ltb_lt; lia).
  cbn [andb]. rewrite N2Z.id. reflexivity.
Qed.

(** The argument found for the text of a value is stored as that value. *)
Lemma load_index_number t n : load_index to_float (JNum t) = Some n -> double_of t = of_int (Z.of_N n).
Proof.
  unfold load_index, double_of. destruct (number t) as [z|d]; [|discriminate]. destruct (Z.leb_spec 0 z) as [A|A]; [|discriminate]. destruct (z <? 2 ^ 64)%Z; [|discriminate].
  cbn [andb]. intros H. injection H as <-. rewrite Z2N.id by exact A. reflexivity.
Qed.
Lemma load_double_number c t d : load_double of_int to_float c (JNum t) = Some d -> double_of t = d.
Proof. unfold load_double, double_of. destruct (number t); [destruct c|]; congruence. Qed.
Lemma load_double_convert t : load_double of_int to_float true (JNum t) = Some (double_of t).
Proof. unfold load_double, double_of. destruct (number t); reflexivity. Qed.

Lemma argument_point a b c : exists i, argument (JArr [JNum a; JNum b; JNum c]) = Some i /\
  conv D of_int i TPoint (VPoint (double_of a) (double_of b) (double_of c)).
Proof.
  unfold argument, overload, load_array.
  destruct (load_double of_int to_float false (JNum a)) as [x|] eqn:A; [destruct (load_double of_int to_float false (JNum b)) as [y|] eqn:B; [destruct (load_double of_int to_float false (JNum c)) as [z|] eqn:C|]|].
  1: { rewrite (load_double_number _ _ _ A), (load_double_number _ _ _ B), (load_double_number _ _ _ C). eexists. split; [reflexivity|constructor]. }
  all: destruct (load_index to_float (JNum a)) as [x'|] eqn:A'; [destruct (load_index to_float (JNum b)) as [y'|] eqn:B'; [destruct (load_index to_float (JNum c)) as [z'|] eqn:C'|]|].
  all: try (rewrite (load_index_number _ _ A'), (load_index_number _ _ B'), (load_index_number _ _ C'); eexists; split; [reflexivity|constructor]).
  all: rewrite !load_double_convert; eexists; (split; [reflexivity|constructor]).
Qed.

Lemma value_argument (v : value) t n k : held v = Some t -> survives v -> k_type k = Some t ->
  (k_type k = Some TMethod <-> n = lit "integration_method") -> (k_type k = Some TGrid <-> n = lit "grid_type") ->
  exists i, conv D of_int i t v /\
    match value_json D show v with
    | JObj _ => False
    | JArr [] => False
    | JArr (JObj _ :: _) => False
    | JArr l => forall d, set_input of_int d n (argument (JArr l)) = set_input of_int d n (Some i)
    | w => forall d, read_scalar of_int to_float d n w = set_input of_int d n (Some i)
    end.
Proof.
  intros H S K M G. assert (M' : t <> TMethod -> text_eqb n (lit "integration_method") = false) by (intros X; apply text_neqb; intros ->; apply X; rewrite K in M; assert (Some t = Some TMethod) by (apply M; reflexivity); congruence).
  assert (G' : t <> TGrid -> text_eqb n (lit "grid_type") = false) by (intros X; apply text_neqb; intros ->; apply X; rewrite K in G; assert (Some t = Some TGrid) by (apply G; reflexivity); congruence).
  destruct v as [|a b c|a b c|b|x|m|s|m|g]; cbn [held] in H; try discriminate H; injection H as <-; cbn [value_json survives] in *.
  - destruct (argument_point (show a) (show b) (show c)) as [i [E C]]. destruct S as [Sa [Sb Sc]]. rewrite Sa, Sb, Sc in C. exists i. split; [exact C|]. intros d. rewrite E. reflexivity.
  - exists (IVec a b c). split; [constructor|]. intros d. f_equal. unfold argument, overload, load_array. rewrite !load_index_show by tauto. cbn [load_double]. rewrite number_index. reflexivity.
  - exists (IBool b). split; [constructor|]. intros d. cbn [read_scalar]. rewrite M', G' by discriminate. reflexivity.
  - destruct S as [E R]. unfold double_of in E. destruct (number (show x)) as [z|y] eqn:N.
    + specialize (R z eq_refl). exists (IIndex (Z.to_N z)). split.
      * rewrite <- E at 1. rewrite <- (Z2N.id z) at 2 by lia. constructor.
      * intros d. cbn [read_scalar]. rewrite M', G' by discriminate. cbn [orb]. f_equal. unfold argument, overload, load_array, load_bool, load_double, load_index. rewrite N.
        replace (0 <=? z)%Z with true by (symmetry; apply Z.leb_le; lia). replace (z <? 2 ^ 64)%Z with true by (symmetry; apply Z.ltb_lt; lia). reflexivity.
    + exists (IDouble y). split; [rewrite E; constructor|]. intros d. cbn [read_scalar]. rewrite M', G' by discriminate. cbn [orb]. f_equal. unfold argument, overload, load_array, load_bool, load_double. rewrite N. reflexivity.
  - exists (IIndex m). split; [constructor|]. intros d. cbn [read_scalar]. rewrite M', G' by discriminate. cbn [orb]. f_equal. unfold argument, overload. cbn [load_array load_bool]. rewrite (load_index_show m S). unfold load_double. rewrite number_index. reflexivity.
  - exists (IString s). split; [constructor|]. intros d. cbn [read_scalar]. rewrite text_of_chars, (text_neqb _ _ S), M', G' by discriminate. f_equal. cbn. rewrite text_of_chars. reflexivity.
  - exists (IMethod m). split; [constructor|]. rewrite (proj1 M K). intros d. destruct m; reflexivity.
  - exists (IGrid g). split; [constructor|]. rewrite (proj1 G K). intros d. destruct g; reflexivity.
Qed.

(** *** The loops *)
Fixpoint each {A} (f : dict -> A -> res dict) (d : dict) (l : list A) : res dict :=
  match l with [] => Ok d | x :: l' => bind (f d x) (fun d' => each f d' l') end.
Definition add_item (n : text) (d : dict) (i : jv) : res dict :=
  bind create_condition_settings (fun c => bind (read_obj i c) (fun c' => let '(d', r) := dict_append d n (Some c') in bind r (fun _ => Ok d'))).
Definition entry (d : dict) (e : list N * jv) : res dict :=
  let n := text_of (fst e) in
  match snd e with
  | JObj _ => bind (go d (Sub n)) (fun x => bind (read_obj (snd e) x) (fun x' => Ok (put d (Sub n) x')))
  | JArr [] => Error
  | JArr ((JObj _ :: _) as items) => if has_list d n then each (add_item n) d items else Error
  | JArr _ => set_input of_int d n (argument (snd e))
  | w => read_scalar of_int to_float d n w
  end.
Lemma each_ext {A} (f g : dict -> A -> res dict) l : (forall d x, f d x = g d x) -> forall d, each f d l = each g d l.
Proof. intros H. induction l as [|x l IH]; intros d; cbn [each]; [reflexivity|]. rewrite H. destruct (g d x); cbn [bind]; auto. Qed.
Lemma each_app {A} (f : dict -> A -> res dict) a b : forall d, each f d (a ++ b) = bind (each f d a) (fun d' => each f d' b).
Proof. induction a as [|x a IH]; intros d; cbn [app each bind]; [reflexivity|]. destruct (f d x); cbn [bind]; auto. Qed.

Lemma read_obj_each l : forall d, read_obj (JObj l) d = each entry d l.
Proof.
  cbn [JsonIoModel.read_obj]. induction l as [|[n w] l IH]; intros d; cbn [each]; [reflexivity|].
  assert (A : forall (r r' : res dict) (f g : dict -> res dict), r = r' -> (forall x, f x = g x) -> bind r f = bind r' g) by (intros r r' f g -> H; destruct r'; cbn [bind]; auto).
  apply A; [|exact IH]. unfold entry. cbn [fst snd]. destruct w as [|b|t|s|[|i items]|o]; try reflexivity.
  destruct i as [|b|t|s|a|o]; try reflexivity. destruct (has_list d (text_of n)); [|reflexivity].
  assert (F : forall its d, (fix append (items : list jv) (d : dict) {struct items} : res dict :=
    match items with
    | [] => Ok d
    | i :: items' => bind create_condition_settings (fun c => bind (read_obj i c) (fun c' =>
        let '(d', r) := dict_append d (text_of n) (Some c') in bind r (fun _ => append items' d')))
    end) its d = each (add_item (text_of n)) d its).
  { clear. induction its as [|i its IH]; intros d; cbn [each]; [reflexivity|].
    unfold add_item at 1. destruct create_condition_settings as [c| | |]; cbn [bind]; try reflexivity. destruct (read_obj i c) as [c'| | |]; cbn [bind]; try reflexivity.
    destruct (dict_append d (text_of n) (Some c')) as [d' r]. destruct r; cbn [bind]; try reflexivity. apply IH. }
  exact (F (JObj o :: items) d).
Qed.

(** *** One container *)
Lemma nth_error_same {A} : forall (a b : list A), (forall i, nth_error a i = nth_error b i) -> a = b.
Proof.
  induction a as [|x a IH]; intros [|y b] H; [reflexivity|specialize (H 0); discriminate H|specialize (H 0); discriminate H|].
  f_equal; [specialize (H 0); injection H; auto|]. apply IH. intros i. exact (H (S i)).
Qed.
Lemma index_inj ks n k n' k' : wf_keyset ks -> In (n, k) (ks_map ks) -> In (n', k') (ks_map ks) -> k_index k = k_index k' -> (n, k) = (n', k').
Proof.
  intros W A B E. assert (Ka : pget_key ks n = Some k) by (apply find_key_in; [apply (wf_map ks W)|exact A]). assert (Kb : pget_key ks n' = Some k') by (apply find_key_in; [apply (wf_map ks W)|exact B]).
  assert (n = n') by (eapply pget_key_inj; eauto). subst. congruence.
Qed.
Lemma each_keys {B} ks (wrap : list B -> dict) (g : text * key -> list N * jv) (target start : list B) :
  wf_keyset ks -> length target = num_keys ks -> length start = num_keys ks ->
  (forall n k cur, In (n, k) (ks_map ks) -> length cur = num_keys ks -> nth_error cur (k_index k) = nth_error start (k_index k) ->
     exists cur', entry (wrap cur) (g (n, k)) = Ok (wrap cur') /\
       forall i, nth_error cur' i = if i =? k_index k then nth_error target i else nth_error cur i) ->
  each entry (wrap start) (map g (ks_map ks)) = Ok (wrap target).
Proof.
  intros W Lt Ls H.
  assert (G : forall m, incl m (ks_map ks) -> NoDup m -> forall cur, length cur = num_keys ks ->
    (forall n k, In (n, k) m -> nth_error cur (k_index k) = nth_error start (k_index k)) ->
    exists fin, each entry (wrap cur) (map g m) = Ok (wrap fin) /\ length fin = num_keys ks /\
      (forall i, (exists n k, In (n, k) m /\ k_index k = i) -> nth_error fin i = nth_error target i) /\
      (forall i, ~ (exists n k, In (n, k) m /\ k_index k = i) -> nth_error fin i = nth_error cur i)).
  { induction m as [|[n k] m IH]; intros I N cur L E.
    - exists cur. split; [reflexivity|]. split; [exact L|]. split; [intros i [n [k [[] _]]]|reflexivity].
    - inversion N as [|? ? N1 N2]; subst. destruct (H n k cur) as [cur' [E1 E2]]; [apply I; left; reflexivity|exact L|apply (E n k); left; reflexivity|].
      assert (R : k_index k < num_keys ks).
      { destruct (pget_key_wf ks n k W) as [_ [_ [R _]]]; [|exact R]. apply find_key_in; [apply (wf_map ks W)|apply I; left; reflexivity]. }
      assert (L' : length cur' = num_keys ks).
      { apply Nat.le_antisymm.
        - apply nth_error_None. rewrite E2. destruct (Nat.eqb_spec (num_keys ks) (k_index k)) as [X|X]; apply nth_error_None; lia.
        - destruct (Nat.le_gt_cases (num_keys ks) (length cur')) as [X|X]; [exact X|]. exfalso.
          assert (Y : nth_error cur' (length cur') = None) by (apply nth_error_None; lia). rewrite E2 in Y. destruct (length cur' =? k_index k); apply nth_error_None in Y; lia. }
      destruct (IH (fun x Hx => I x (or_intror Hx)) N2 cur' L') as [fin [F1 [F2 [F3 F4]]]].
      { intros n' k' In'. rewrite E2. destruct (Nat.eqb_spec (k_index k') (k_index k)) as [X|X]; [|apply (E n' k'); right; exact In'].
        exfalso. apply N1. rewrite (index_inj ks n k n' k' W); [exact In'|apply I; left; reflexivity|apply I; right; exact In'|symmetry; exact X]. }
      exists fin. split; [cbn [map each]; rewrite E1; exact F1|]. split; [exact F2|]. split.
      + intros i [n' [k' [[X|X] Y]]]; [|apply F3; exists n', k'; auto]. injection X as <- <-. subst i.
        rewrite F4. * rewrite E2, Nat.eqb_refl. reflexivity.
        * intros [n' [k' [X Y]]]. apply N1. rewrite (index_inj ks n k n' k' W); [exact X|apply I; left; reflexivity|apply I; right; exact X|symmetry; exact Y].
      + intros i X. rewrite F4 by (intros [n' [k' [Y Z]]]; apply X; exists n', k'; split; [right; exact Y|exact Z]). rewrite E2.
        destruct (Nat.eqb_spec i (k_index k)) as [Y|Y]; [|reflexivity]. exfalso. apply X. exists n, k. split; [left; reflexivity|symmetry; exact Y]. }
  destruct (G (ks_map ks) (fun x Hx => Hx)) with (cur := start) as [fin [F1 [F2 [F3 _]]]]; [|exact Ls|reflexivity|].
  { apply (NoDup_map_inv fst). apply (wf_map ks W). }
  rewrite F1. f_equal. f_equal. apply nth_error_same. intros i. destruct (Nat.lt_ge_cases i (num_keys ks)) as [X|X].
  - apply F3. apply (keys_all_in ks W i X).
  - transitivity (@None B); [apply nth_error_None; lia|symmetry; apply nth_error_None; lia].
Qed.
(** *** Dictionaries *)
Definition condition : dict := new_dict (Some ConditionSettings_Values) None None.

(** d can be recovered by reading its text into d0: one level, and all levels. *)
Definition level_compat (d0 d : dict) : Prop :=
  match d_data d0, d_data d with
  | None, None => True
  | Some a, Some b => ds_keys a = ds_keys b /\ length (ds_data a) = num_keys (ds_keys b) /\ typed_dataset D b /\ enum_names (ds_keys b) /\
      (forall v, In v (ds_data b) -> survives v) /\
      (forall i, nth_error (ds_data b) i = Some Unset -> nth_error (ds_data a) i = Some Unset)
  | _, _ => False
  end /\
  match d_subs d0, d_subs d with
  | None, None => True
  | Some (ka, a), Some (kb, b) => ka = kb /\ wf_keyset kb /\ length a = num_keys kb /\ length b = num_keys kb /\ ~ In None a /\ ~ In None b
  | _, _ => False
  end /\
  match d_lists d0, d_lists d with
  | None, None => True
  | Some (ka, a), Some (kb, b) => ka = kb /\ wf_keyset kb /\ a = repeat [] (num_keys kb) /\ length b = num_keys kb /\
      (forall l, In l b -> l <> [] /\ ~ In None l)
  | _, _ => False
  end.
Inductive compat : dict -> dict -> Prop :=
| compat_dict d0 d : level_compat d0 d ->
    (forall n x0 x, go d0 (Sub n) = Ok x0 -> go d (Sub n) = Ok x -> compat x0 x) ->
    (forall n i x, go d (Item n i) = Ok x -> compat condition x) ->
    compat d0 d.

Lemma set_conv (ds : dataset) n k i t v : pget_key (ds_keys ds) n = Some k -> k_type k = Some t -> conv D of_int i t v -> k_index k < length (ds_data ds) ->
  exists l, set_nth (k_index k) v (ds_data ds) = Some l /\ set_value of_int ds n i = ({| ds_keys := ds_keys ds; ds_data := l |}, Ok tt).
Proof.
  intros K E C R. destruct (store_ok D ds (k_index k) v R) as [l [S1 S2]]. exists l. split; [exact S1|]. rewrite <- S2.
  unfold set_value. rewrite K. destruct C; unfold target_is; rewrite E; cbn [ty_eqb]; try reflexivity.
  subst z. replace (Z.of_N n0 <? 0)%Z with false by (symmetry; apply Z.ltb_ge; lia). rewrite N2Z.id. reflexivity.
Qed.

Lemma key_in ks n k : wf_keyset ks -> In (n, k) (ks_map ks) -> pget_key ks n = Some k /\ k_index k < num_keys ks.
Proof.
  intros W I. assert (K : pget_key ks n = Some k) by (apply find_key_in; [apply (wf_map ks W)|exact I]). split; [exact K|]. apply (pget_key_wf ks n k W K).
Qed.

Lemma data_round a (b : dataset) subs lists : ds_keys a = ds_keys b -> length (ds_data a) = num_keys (ds_keys b) -> typed_dataset D b -> enum_names (ds_keys b) ->
  (forall v, In v (ds_data b) -> survives v) -> (forall i, nth_error (ds_data b) i = Some Unset -> nth_error (ds_data a) i = Some Unset) ->
  each entry (Dict (Some a) subs lists) (map (fun e => (chars_of (fst e), value_json D show (nth (k_index (snd e)) (ds_data b) Unset))) (ks_map (ds_keys b))) = Ok (Dict (Some b) subs lists).
Proof.
  intros Ek La Tb En Sv Un. assert (W := proj1 Tb). assert (Lb := proj1 (proj2 Tb)).
  assert (G := each_keys (ds_keys b) (fun l => Dict (Some {| ds_keys := ds_keys b; ds_data := l |}) subs lists)
    (fun e => (chars_of (fst e), value_json D show (nth (k_index (snd e)) (ds_data b) Unset))) (ds_data b) (ds_data a) W Lb La).
  cbv beta in G. destruct a as [ka a]. destruct b as [kb b]. cbn [ds_keys ds_data] in *. subst ka. apply G. clear G.
  intros n k cur I L E. destruct (key_in kb n k W I) as [K R]. cbn [fst snd].
  assert (N : nth_error b (k_index k) = Some (nth (k_index k) b Unset)) by (apply nth_error_nth'; rewrite Lb; exact R).
  assert (Iv : In (nth (k_index k) b Unset) b) by (apply nth_In; rewrite Lb; exact R).
  generalize dependent (nth (k_index k) b Unset). intros v N Iv.
  assert (Hv : v = Unset \/ exists t, held v = Some t) by (destruct v; [left; reflexivity|right..]; eexists; reflexivity). destruct Hv as [-> | [t Ht]].
  { exists cur. split; [reflexivity|]. intros i. destruct (Nat.eqb_spec i (k_index k)) as [-> | X]; [|reflexivity]. rewrite E, (Un _ N), N. reflexivity. }
  assert (Kt : k_type k = Some t) by exact (proj2 (proj2 Tb) n k v t K N Ht).
  destruct (En n k I) as [Em Eg]. destruct (value_argument v t n k Ht (Sv v Iv) Kt Em Eg) as [i [C A]].
  destruct (set_conv {| ds_keys := kb; ds_data := cur |} n k i t v K Kt C) as [l [S1 S2]]; [cbn [ds_data]; rewrite L; exact R|]. cbn [ds_keys ds_data] in S1, S2.
  exists l. split; [|intros j; rewrite (set_nth_get _ _ _ _ _ S1); destruct (Nat.eqb_spec j (k_index k)) as [-> | X]; [symmetry; exact N|reflexivity]].
  assert (Q : set_input of_int (Dict (Some {| ds_keys := kb; ds_data := cur |}) subs lists) n (Some i) = Ok (Dict (Some {| ds_keys := kb; ds_data := l |}) subs lists)) by (unfold set_input, dict_set; rewrite S2; reflexivity).
  rewrite <- Q. unfold entry. cbn [fst snd]. rewrite text_of_chars. destruct v; cbn [value_json] in A |- *; exact (A _).
Qed.

(** a list of conditions *)
Lemma append_round kb n k data subs : forall (l pre : list (option dict)) ll, pget_key kb n = Some k -> nth_error ll (k_index k) = Some pre ->
  (forall o, In o l -> exists x, o = Some x /\ read_obj (JObj (fields D show x)) condition = Ok x) ->
  exists ll', set_nth (k_index k) (pre ++ l) ll = Some ll' /\
    each (add_item n) (Dict data subs (Some (kb, ll))) (map (fun o => match o with None => JNull | Some x => JObj (fields D show x) end) l) = Ok (Dict data subs (Some (kb, ll'))).
Proof.
  induction l as [|o l IH]; intros pre ll K N H.
  - exists ll. rewrite app_nil_r. split; [apply set_nth_same, N|reflexivity].
  - destruct (H o (or_introl eq_refl)) as [x [-> Hx]]. cbn [map each].
    destruct (set_nth_some (k_index k) (pre ++ [Some x]) ll) as [l1 S1]; [apply nth_error_Some; congruence|].
    destruct (IH (pre ++ [Some x]) l1 K) as [l2 [S2 E2]]; [rewrite (set_nth_get _ _ _ _ _ S1), Nat.eqb_refl; reflexivity|intros o Ho; apply H; right; exact Ho|].
    assert (A : add_item n (Dict data subs (Some (kb, ll))) (JObj (fields D show x)) = Ok (Dict data subs (Some (kb, l1)))).
    { unfold add_item. change create_condition_settings with (Ok condition). cbn [bind]. rewrite Hx. cbn [bind dict_append]. rewrite K, N, S1. reflexivity. }
    rewrite A. cbn [bind]. exists l2. split; [|exact E2].
    rewrite <- app_assoc in S2. cbn [app] in S2. rewrite <- S2. destruct (set_nth_some (k_index k) (pre ++ Some x :: l) ll) as [l3 S3]; [apply nth_error_Some; congruence|].
    rewrite S3, S2. f_equal. apply nth_error_same. intros i. rewrite (set_nth_get _ _ _ _ _ S3), (set_nth_get _ _ _ _ _ S2), (set_nth_get _ _ _ _ _ S1). destruct (i =? k_index k); reflexivity.
Qed.

Lemma subs_round data kb (a b : list (option dict)) lists : wf_keyset kb -> length a = num_keys kb -> length b = num_keys kb ->
  (forall i, i < num_keys kb -> exists x0 x, nth_error a i = Some (Some x0) /\ nth_error b i = Some (Some x) /\ read_obj (JObj (fields D show x)) x0 = Ok x) ->
  each entry (Dict data (Some (kb, a)) lists) (map (fun e : text * key => (chars_of (fst e), nth (k_index (snd e)) (map (fun o => JObj (match o with None => [] | Some x => fields D show x end)) b) JNull)) (ks_map kb)) = Ok (Dict data (Some (kb, b)) lists).
Proof.
  intros W La Lb H. set (g := fun e : text * key => (chars_of (fst e), nth (k_index (snd e)) (map (fun o => JObj (match o with None => [] | Some x => fields D show x end)) b) JNull)).
  apply (each_keys kb (fun l => Dict data (Some (kb, l)) lists) g b a W Lb La).
  intros n k cur I L E. destruct (key_in kb n k W I) as [K R]. destruct (H _ R) as [x0 [x [Ea [Eb Rx]]]].
  destruct (set_nth_some (k_index k) (Some x) cur) as [l S]; [lia|]. exists l. split; [|intros i; rewrite (set_nth_get _ _ _ _ _ S); destruct (Nat.eqb_spec i (k_index k)) as [-> | X]; [symmetry; exact Eb|reflexivity]].
  assert (G : g (n, k) = (chars_of n, JObj (fields D show x))).
  { unfold g. cbn [fst snd]. f_equal. apply nth_error_nth. rewrite nth_error_map, Eb. reflexivity. }
  rewrite G. unfold entry. cbn [fst snd]. rewrite text_of_chars. cbn [go d_subs]. rewrite K, E, Ea. cbn [bind]. rewrite Rx. cbn [bind]. unfold put. cbn [d_subs d_data d_lists]. rewrite K, S. reflexivity.
Qed.

Lemma round_trip : forall d d0, compat d0 d -> read_obj (JObj (fields D show d)) d0 = Ok d.
Proof.
  apply (dict_nested_ind D (fun d => forall d0, compat d0 d -> read_obj (JObj (fields D show d)) d0 = Ok d)).
  intros data subs lists IHs IHl d0 C. inversion C as [? ? L Cs Ci E1 E2]; subst. destruct d0 as [data0 subs0 lists0]. destruct L as [Ld [Ls Ll]]. cbn [d_data d_subs d_lists] in Ld, Ls, Ll.
  rewrite read_obj_each. cbn [fields]. rewrite !each_app.
  (* values *)
  assert (R1 : each entry (Dict data0 subs0 lists0) (match data with None => [] | Some ds => map (fun e => (chars_of (fst e), value_json D show (nth (k_index (snd e)) (ds_data ds) Unset))) (ks_map (ds_keys ds)) end) = Ok (Dict data subs0 lists0)).
  { destruct data0 as [a|], data as [b|]; try contradiction; [|reflexivity]. destruct Ld as [A1 [A2 [A3 [A4 [A5 A6]]]]]. apply data_round; assumption. }
  rewrite R1. clear R1 Ld. cbn [bind]. rewrite each_app.
  (* sub-dictionaries *)
  match goal with |- bind ?r _ = _ => assert (R2 : r = Ok (Dict data subs lists0)) end.
  { destruct subs0 as [[ka a]|], subs as [[kb b]|]; try contradiction; [|reflexivity]. destruct Ls as [-> [W [La [Lb [Na Nb]]]]].
    apply subs_round; [exact W|exact La|exact Lb|]. intros i R.
    destruct (keys_all_in kb W i R) as [n [k [I <-]]]. destruct (key_in kb n k W I) as [K _].
    destruct (nth_error b (k_index k)) as [o|] eqn:Eb; [|apply nth_error_None in Eb; lia]. destruct o as [x|]; [|exfalso; apply Nb; eapply nth_error_In; exact Eb].
    destruct (nth_error a (k_index k)) as [o|] eqn:Ea; [|apply nth_error_None in Ea; lia]. destruct o as [x0|]; [|exfalso; apply Na; eapply nth_error_In; exact Ea].
    exists x0, x. split; [reflexivity|]. split; [reflexivity|]. apply (IHs kb b x eq_refl (nth_error_In _ _ Eb)).
    apply (Cs n x0 x); cbn [go d_subs]; rewrite K; [rewrite Ea|rewrite Eb]; reflexivity. }
  rewrite R2. clear R2 Ls. cbn [bind].
  (* lists *)
  destruct lists0 as [[ka a]|], lists as [[kb b]|]; try contradiction; [|reflexivity]. destruct Ll as [-> [W [-> [Lb Hl]]]].
  match goal with |- each entry _ (map ?h _) = _ => set (g := h) end.
  apply (each_keys kb (fun l => Dict data subs (Some (kb, l))) g b (repeat [] (num_keys kb)) W Lb (repeat_length _ _)).
  intros n k cur I L E. destruct (key_in kb n k W I) as [K R].
  destruct (nth_error b (k_index k)) as [l|] eqn:Eb; [|apply nth_error_None in Eb; lia]. assert (Il := nth_error_In _ _ Eb). destruct (Hl l Il) as [Nl Nn].
  assert (Er : nth_error (repeat (@nil (option dict)) (num_keys kb)) (k_index k) = Some []).
  { rewrite (nth_error_nth' _ []) by (rewrite repeat_length; exact R). rewrite nth_repeat. reflexivity. }
  rewrite Er in E.
  assert (Ho : forall o, In o l -> exists x, o = Some x /\ read_obj (JObj (fields D show x)) condition = Ok x).
  { intros [x|] Io; [|contradiction]. exists x. split; [reflexivity|]. apply (IHl kb b l x eq_refl Il Io). destruct (In_nth_error _ _ Io) as [i Ei]. apply (Ci n i x). cbn [go d_lists]. rewrite K, Eb, Ei. reflexivity. }
  destruct (append_round kb n k data subs l [] cur K E Ho) as [ll' [S A]]. cbn [app] in S.
  exists ll'. split; [|intros i; rewrite (set_nth_get _ _ _ _ _ S); destruct (Nat.eqb_spec i (k_index k)) as [-> | X]; [symmetry; exact Eb|reflexivity]].
  assert (G : g (n, k) = (chars_of n, JArr (map (fun o => match o with None => JNull | Some x => JObj (fields D show x) end) l))).
  { unfold g. cbn [fst snd]. f_equal. apply nth_error_nth. rewrite nth_error_map, Eb. reflexivity. }
  rewrite G. rewrite <- A. unfold entry. cbn [fst snd]. rewrite text_of_chars.
  destruct l as [|[x|] l]; [contradiction Nl; reflexivity| |exfalso; apply Nn; left; reflexivity]. cbn [map]. unfold has_list. cbn [d_lists]. rewrite K. reflexivity.
Qed.
End Doubles.
