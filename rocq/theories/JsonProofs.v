(** The text written for a dictionary is the JSON text of its contents. *)
From Coq Require Import String Ascii Bool NArith ZArith Arith List Lia Permutation.
From Coq Require Decimal DecimalN DecimalFacts DecimalPos.
From Verif Require Import KeysModel KeysProofs DictModel DictProofs JsonModel JsonSpec JsonSpecProofs.
Import ListNotations.
Local Open Scope nat_scope.

(** *** The contents of a dictionary as a JSON value *)

Definition chars_of (t : text) : list N := map code t.
Definition plain (t : text) : Prop := forallb unescaped t = true.

Section Doubles.
Variable D : Type.
Variable show : D -> text.
Notation dict := (dict D).
Notation dataset := (dataset D).
Notation value := (value D).

Definition value_json (v : value) : jv :=
  match v with
  | Unset => JStr (chars_of (lit "Not Set."))
  | VPoint a b c => JArr [JNum (show a); JNum (show b); JNum (show c)]
  | VVec a b c => JArr [JNum (show_index a); JNum (show_index b); JNum (show_index c)]
  | VIndex n => JNum (show_index n)
  | VDouble d => JNum (show d)
  | VString s => JStr (chars_of s)
  | VBool b => JBool b
  | VMethod m => JStr (chars_of (show_method m))
  | VGrid g => JStr (chars_of (show_grid g))
  end.

Fixpoint fields (d : dict) : list (list N * jv) :=
  match d with
  | Dict data subs lists =>
      (match data with
       | None => []
       | Some ds => map (fun e => (chars_of (fst e), value_json (nth (k_index (snd e)) (ds_data ds) Unset))) (ks_map (ds_keys ds))
       end) ++
      (match subs with
       | None => []
       | Some (ks, l) =>
           let c := map (fun o => JObj (match o with None => [] | Some x => fields x end)) l in
           map (fun e => (chars_of (fst e), nth (k_index (snd e)) c JNull)) (ks_map ks)
       end) ++
      (match lists with
       | None => []
       | Some (ks, ll) =>
           let c := map (fun l => JArr (map (fun o => match o with None => JNull | Some x => JObj (fields x) end) l)) ll in
           map (fun e => (chars_of (fst e), nth (k_index (snd e)) c JNull)) (ks_map ks)
       end)
  end.

(** *** Dictionaries that can be written *)

Definition value_printable (v : value) : Prop :=
  match v with
  | VString s => plain s
  | VDouble d => is_number (show d) = true
  | VPoint a b c => is_number (show a) = true /\ is_number (show b) = true /\ is_number (show c) = true
  | _ => True
  end.
Definition names_plain (ks : keyset) : Prop := forall n, In n (ks_names ks) -> plain n.
Definition level_printable (d : dict) : Prop :=
  (forall ds, d_data d = Some ds -> names_plain (ds_keys ds) /\ forall v, In v (ds_data ds) -> value_printable v) /\
  (forall ks l, d_subs d = Some (ks, l) -> names_plain ks) /\
  (forall ks ll, d_lists d = Some (ks, ll) -> names_plain ks /\ forall l o, In l ll -> In o l -> o <> None).
Definition printable (d : dict) : Prop := forall p x, walk d p = Ok x -> level_printable x.

Lemma printable_level (d : dict) : printable d -> level_printable d.
Proof. intros H. apply (H [] d). reflexivity. Qed.
Lemma printable_go (d : dict) s x : printable d -> go d s = Ok x -> printable x.
Proof. intros H G p y W. apply (H (s :: p) y). simpl. rewrite G. exact W. Qed.

(** *** Texts of the parts *)

Lemma plain_chars t : plain t -> chars (chars_of t) t.
Proof.
  unfold plain. induction t as [|c t IH]; intros H; [constructor|]. simpl in H. apply andb_true_iff in H.
  destruct H as [A B]. constructor; auto.
Qed.

Lemma string_derives t : plain t -> derives (JStr (chars_of t)) (dq ++ t ++ dq).
Proof. intros H. exact (d_str _ _ (plain_chars t H)). Qed.

Lemma show_uint_digits d : forallb is_digit (show_uint d) = true.
Proof. induction d; simpl; auto. Qed.
Lemma digits_all t : forallb is_digit t = true -> digits t = [].
Proof. induction t as [|c t IH]; simpl; [reflexivity|]. rewrite andb_true_iff. intros [A B]. rewrite A. auto. Qed.

Lemma number_digits t : forallb is_digit t = true -> (t = ["0"%char] \/ exists c r, t = c :: r /\ Ascii.eqb c "0" = false) ->
  is_number t = true.
Proof.
  intros H [-> | [c [r [-> Z]]]]; [reflexivity|]. simpl in H. apply andb_true_iff in H. destruct H as [A B].
  unfold is_number, p_sign.
  assert (M : Ascii.eqb c "-" = false). { destruct (Ascii.eqb c "-") eqn:E; [|reflexivity]. apply Ascii.eqb_eq in E. subst. discriminate A. }
  rewrite M. unfold p_int. rewrite Z. unfold digits1. rewrite A, digits_all by exact B. reflexivity.
Qed.

Lemma show_index_number n : is_number (show_index n) = true.
Proof.
  apply number_digits; [apply show_uint_digits|].
  assert (U : Decimal.unorm (N.to_uint n) = N.to_uint n).
  { rewrite <- (DecimalN.Unsigned.of_to n) at 2. rewrite DecimalN.Unsigned.to_of. reflexivity. }
  unfold show_index. destruct (N.to_uint n) as [|d|d|d|d|d|d|d|d|d|d] eqn:E;
    try (right; simpl; eexists; eexists; split; [reflexivity | reflexivity]).
  - destruct n as [|p]; [discriminate E|]. exfalso. simpl in E. exact (DecimalPos.Unsigned.to_uint_nonnil p E).
  - left. destruct n as [|p].
    + change (N.to_uint 0) with (Decimal.D0 Decimal.Nil) in E. inversion E. reflexivity.
    + exfalso. simpl in E. apply (DecimalPos.Unsigned.to_uint_nonzero p). 
      rewrite E in *. clear - U. rewrite DecimalFacts.unorm_D0 in U.
      destruct (Decimal.uint_eq_dec d Decimal.Nil) as [-> | H]; [reflexivity|].
      exfalso. assert (L := f_equal Decimal.nb_digits U).
      assert (Q : forall e, Decimal.nb_digits (Decimal.unorm e) <= max 1 (Decimal.nb_digits e)).
      { clear. induction e as [|e IH| | | | | | | | |]; try (simpl; lia).
        rewrite DecimalFacts.unorm_D0. simpl Decimal.nb_digits at 2. lia. }
      specialize (Q d). simpl in L. destruct d; simpl in *; try lia. apply H. reflexivity.
Qed.

Lemma value_derives (v : value) : value_printable v -> derives (value_json v) (print_value show v).
Proof.
  assert (A : forall a b c, is_number a = true -> is_number b = true -> is_number c = true ->
    derives (JArr [JNum a; JNum b; JNum c]) (lit "[" ++ a ++ lit ", " ++ b ++ lit ", " ++ c ++ lit "]")).
  { intros a b c Ha Hb Hc.
    replace (lit "[" ++ a ++ lit ", " ++ b ++ lit ", " ++ c ++ lit "]")
      with ("["%char :: ([] ++ a ++ [] ++ ","%char :: [" "%char] ++ b ++ [] ++ ","%char :: ([" "%char] ++ c ++ [])) ++ ["]"%char]).
    2:{ cbn [lit list_ascii_of_string app]. rewrite app_nil_r. rewrite <- !app_assoc. cbn [app]. rewrite <- !app_assoc. reflexivity. }
    apply d_arr. apply e_cons; try reflexivity; [apply d_num, Ha|]. apply e_cons; try reflexivity; [apply d_num, Hb|].
    apply e_one; try reflexivity. apply d_num, Hc. }
  destruct v as [|a b c|a b c|b|x|n|s|m|g]; intros H; simpl in H; cbn [value_json print_value].
  - apply string_derives. reflexivity.
  - apply A; tauto.
  - apply A; apply show_index_number.
  - destruct b; constructor.
  - apply d_num, H.
  - apply d_num, show_index_number.
  - apply string_derives, H.
  - apply string_derives. destruct m; reflexivity.
  - apply string_derives. destruct g; reflexivity.
Qed.

(** white space around members *)
Lemma member_before f t w : member f t -> ws w -> member f (w ++ t).
Proof.
  intros H W. destruct H. rewrite app_assoc. constructor; auto using ws_app.
Qed.
Lemma member_after f t w : member f t -> ws w -> member f (t ++ w).
Proof.
  intros H W. destruct H. rewrite <- app_assoc. cbn [app]. rewrite <- app_assoc. cbn [app]. rewrite <- app_assoc. cbn [app].
  rewrite <- app_assoc. rewrite <- app_assoc. constructor; auto using ws_app.
Qed.
Lemma members_before l t w : members l t -> ws w -> members l (w ++ t).
Proof.
  intros H W. destruct H; [constructor; apply member_before; assumption|]. rewrite app_assoc.
  constructor; [apply member_before; assumption | assumption].
Qed.
Lemma members_after l t w : members l t -> ws w -> members l (t ++ w).
Proof.
  intros H W. revert w W. induction H using members_ind' with (P := fun _ _ => True) (P1 := fun _ _ => True) (P2 := fun _ _ => True); auto.
  - intros w W. constructor. apply member_after; assumption.
  - intros w W. rewrite <- app_assoc. cbn [app]. constructor; [assumption | apply IHmembers0, W].
Qed.
Lemma members_app l l' t t' : members l t -> members l' t' -> members (l ++ l') (t ++ ","%char :: t').
Proof.
  intros H H'. revert H'. induction H using members_ind' with (P := fun _ _ => True) (P1 := fun _ _ => True) (P2 := fun _ _ => True); auto.
  - intros H'. cbn [app]. constructor; assumption.
  - intros H'. rewrite <- app_assoc. cbn [app]. constructor; [assumption | auto].
Qed.

(** the text of the fields of a dictionary *)
Definition block (l : list (list N * jv)) (t : text) : Prop := (l = [] /\ t = []) \/ members l t.

Lemma object_derives l t w w' : block l t -> ws w -> ws w' -> derives (JObj l) (lit "{" ++ w ++ t ++ w' ++ lit "}").
Proof.
  intros B W W'.
  replace (lit "{" ++ w ++ t ++ w' ++ lit "}") with ("{"%char :: (w ++ t ++ w') ++ ["}"%char])
    by (cbn [lit list_ascii_of_string app]; rewrite <- !app_assoc; reflexivity).
  destruct B as [[-> ->]|B].
  - apply d_obj0. cbn [app]. apply ws_app; assumption.
  - apply d_obj. apply members_before; [|assumption]. apply members_after; assumption.
Qed.

(** one loop over a key map *)
Lemma print_entries_ok (body : text -> key -> res text) close sepl (f : text * key -> list N * jv) m :
  (forall n k, In (n, k) m -> exists c, body n k = Ok c /\ member (f (n, k)) (c ++ close)) ->
  exists t, print_entries body (close ++ sepl) (close ++ lit "," ++ nl) m = Ok t /\
    ((m = [] /\ t = []) \/ exists t0, members (map f m) t0 /\ t = t0 ++ sepl).
Proof.
  induction m as [|[n k] m IH]; intros H; [exists []; auto|].
  destruct (H n k (or_introl eq_refl)) as [c [B M]]. destruct IH as [t [E I]]; [intros; apply H; right; assumption|].
  cbn [print_entries]. rewrite B, E. cbn [bind]. eexists. split; [reflexivity|]. right.
  destruct m as [|e m].
  - destruct I as [[_ ->] | [t0 [I _]]]; [|inversion I]. exists (c ++ close). cbn [map]. split; [constructor; exact M|].
    rewrite app_nil_r, app_assoc. reflexivity.
  - destruct I as [[I _] | [t0 [I ->]]]; [discriminate I|].
    exists ((c ++ close) ++ ","%char :: nl ++ t0). split.
    + change (map f ((n, k) :: e :: m)) with (f (n, k) :: map f (e :: m)). constructor; [exact M|].
      apply members_before; [exact I | reflexivity].
    + cbn [lit list_ascii_of_string app nl]. rewrite <- !app_assoc. cbn [app]. reflexivity.
Qed.

Lemma elements_before l t w : elements l t -> ws w -> elements l (w ++ t).
Proof.
  intros H W. destruct H; rewrite app_assoc; constructor; auto using ws_app.
Qed.
Lemma elements_after l t w : elements l t -> ws w -> elements l (t ++ w).
Proof.
  intros H W. revert w W. induction H using elements_ind' with (P := fun _ _ => True) (P0 := fun _ _ => True) (P1 := fun _ _ => True); auto.
  - intros w W. rewrite <- !app_assoc. constructor; auto using ws_app.
  - intros w W. rewrite <- !app_assoc. cbn [app]. constructor; auto using ws_app.
Qed.

Lemma print_items_ok ind : ws ind -> forall (c : list (res text)) ls,
  Forall2 (fun r l => exists t, r = Ok t /\ block l t) c ls ->
  exists u, print_items ind c = Ok u /\ ((ls = [] /\ u = []) \/ elements (map JObj ls) u).
Proof.
  intros W c ls H. induction H as [|r l c ls [t [-> B]] H IH]; [exists []; auto|].
  destruct IH as [u [E I]]. cbn [print_items bind]. rewrite E. cbn [bind]. eexists. split; [reflexivity|]. right.
  assert (O : derives (JObj l) (lit "{" ++ nl ++ t ++ ind ++ lit "}")) by (apply object_derives; auto; reflexivity).
  destruct H as [|r l' c ls X H].
  - destruct I as [[_ ->]|I]; [|inversion I]. cbn [map].
    replace (ind ++ lit "{" ++ nl ++ t ++ ind ++ lit "}" ++ nl ++ []) with (ind ++ (lit "{" ++ nl ++ t ++ ind ++ lit "}") ++ nl).
    2:{ cbn [lit list_ascii_of_string app nl]. rewrite <- !app_assoc. reflexivity. }
    constructor; [exact W | exact O | reflexivity].
  - destruct I as [[I _]|I]; [discriminate I|].
    replace (ind ++ lit "{" ++ nl ++ t ++ ind ++ lit "}," ++ nl ++ u)
      with (ind ++ (lit "{" ++ nl ++ t ++ ind ++ lit "}") ++ [] ++ ","%char :: nl ++ u).
    2:{ cbn [lit list_ascii_of_string app nl]. repeat (rewrite <- !app_assoc; cbn [app]). reflexivity. }
    change (map JObj (l :: l' :: ls)) with (JObj l :: map JObj (l' :: ls)).
    constructor; [exact W | exact O | reflexivity | apply elements_before; [exact I | reflexivity]].
Qed.

Lemma print_info_unfold ind (data : option dataset) subs lists : print_info show ind (Dict data subs lists) =
  let indent1 := ind ++ lit "    " in
  let n_subs := match subs with Some (_, l) => length l | None => 0 end in
  let n_lists := match lists with Some (_, l) => length l | None => 0 end in
  let n_items := n_subs + n_lists in
  bind (match data with
        | None => Ok []
        | Some ds =>
            print_entries (fun n k => bind (print_entry show ds k) (fun v => Ok (indent1 ++ dq ++ n ++ dq ++ lit " : " ++ v)))
              (if n_items =? 0 then nl else lit "," ++ nl) (lit "," ++ nl) (ks_map (ds_keys ds))
        end) (fun t1 =>
  bind (match subs with
        | None => Ok []
        | Some (ks, l) =>
            let c := map (fun o => match o with None => Ok [] | Some x => print_info show indent1 x end) l in
            print_entries (fun n k => match nth_error c (k_index k) with
                                      | None => Undefined
                                      | Some r => bind r (fun v => Ok (indent1 ++ dq ++ n ++ dq ++ lit " : {" ++ nl ++ v))
                                      end)
              (indent1 ++ (if n_lists =? 0 then lit "}" else lit "},") ++ nl) (indent1 ++ lit "}," ++ nl) (ks_map ks)
        end) (fun t2 =>
  bind (match lists with
        | None => Ok []
        | Some (ks, ll) =>
            let indent2 := indent1 ++ lit "    " in
            let c := map (fun l => print_items indent2
                            (map (fun o => match o with None => Undefined | Some x => print_info show indent2 x end) l)) ll in
            print_entries (fun n k => match nth_error c (k_index k) with
                                      | None => Undefined
                                      | Some r => bind r (fun v => Ok (indent1 ++ dq ++ n ++ dq ++ lit " : [" ++ nl ++ v))
                                      end)
              (indent1 ++ lit "]" ++ nl) (indent1 ++ lit "]," ++ nl) (ks_map ks)
        end) (fun t3 => Ok (t1 ++ t2 ++ t3)))).
Proof. reflexivity. Qed.

Lemma entry_name ks n k : wf_keyset ks -> names_plain ks -> In (n, k) (ks_map ks) ->
  plain n /\ k_index k < num_keys ks /\ is_part_of ks k = true.
Proof.
  intros W P I. destruct (wf_entry ks W n k I) as [A [_ N]]. split; [|split].
  - apply P. eapply nth_error_In, N.
  - apply nth_error_Some. rewrite N. discriminate.
  - unfold is_part_of. apply Nat.eqb_eq. symmetry. exact A.
Qed.

Lemma map_nonempty ks : wf_keyset ks -> ks_map ks = [] -> num_keys ks = 0.
Proof.
  intros W E. destruct (num_keys ks) eqn:N; [reflexivity|]. destruct (keys_all_in ks W 0) as [n' [k [I _]]]; [lia|].
  rewrite E in I. destruct I.
Qed.
Lemma map_empty ks : wf_keyset ks -> num_keys ks = 0 -> ks_map ks = [].
Proof.
  intros W N. destruct (ks_map ks) as [|[n k] m] eqn:E; [reflexivity|]. exfalso.
  destruct (wf_entry ks W n k) as [_ [_ H]]; [rewrite E; left; reflexivity|].
  assert (k_index k < num_keys ks) by (apply nth_error_Some; rewrite H; discriminate). lia.
Qed.

Theorem print_info_ok (d : dict) : sound D d -> printable d -> forall ind, ws ind ->
  exists t, print_info show ind d = Ok t /\ block (fields d) t.
Proof.
  induction d as [data subs lists IHs IHl] using dict_nested_ind. intros S P ind W.
  assert (L := sound_level _ _ S). destruct L as [Ld [Ls Ll]]. simpl in Ld, Ls, Ll.
  destruct (printable_level _ P) as [Pd [Ps Pl]]. cbn [d_data d_subs d_lists] in Pd, Ps, Pl.
  assert (W1 : ws (ind ++ lit "    ")) by (apply ws_app; [exact W | reflexivity]).
  rewrite print_info_unfold. cbv zeta.
  set (ind1 := ind ++ lit "    ") in *. set (ind2 := ind1 ++ lit "    ").
  assert (W2 : ws ind2) by (apply ws_app; [exact W1 | reflexivity]).
  set (n_lists := match lists with Some (_, l) => length l | None => 0 end).
  set (n_subs := match subs with Some (_, l) => length l | None => 0 end).
  (* lists *)
  set (F3 := match lists with
       | None => []
       | Some (ks, ll) =>
           let c := map (fun l => JArr (map (fun o => match o with None => JNull | Some x => JObj (fields x) end) l)) ll in
           map (fun e => (chars_of (fst e), nth (k_index (snd e)) c JNull)) (ks_map ks)
       end).
  match goal with |- context [bind ?a (fun t2 => bind ?b (fun t3 => Ok (_ ++ t2 ++ t3)))] => set (B3 := b); set (B2 := a) end.
  assert (H3 : exists t3, B3 = Ok t3 /\ ((n_lists = 0 /\ F3 = [] /\ t3 = []) \/ (n_lists <> 0 /\ members F3 t3))).
  { unfold B3, F3, n_lists. clear B3 F3 n_lists B2. destruct lists as [[ks ll]|]; [|exists []; auto].
    destruct Ll as [Wk Len]. destruct (Pl ks ll eq_refl) as [Pn Po].
    set (c := map (fun l => print_items ind2 (map (fun o => match o with None => Undefined | Some x => print_info show ind2 x end) l)) ll).
    set (cj := map (fun l => JArr (map (fun o => match o with None => JNull | Some x => JObj (fields x) end) l)) ll).
    cbv zeta. fold cj. fold ind2. fold c.
    destruct (print_entries_ok (fun n k => match nth_error c (k_index k) with
        | None => Undefined
        | Some r => bind r (fun v => Ok (ind1 ++ dq ++ n ++ dq ++ lit " : [" ++ nl ++ v))
        end) (ind1 ++ lit "]") nl (fun e => (chars_of (fst e), nth (k_index (snd e)) cj JNull)) (ks_map ks)) as [t [E B]].
    - intros n k I. destruct (entry_name ks n k Wk Pn I) as [Np [R _]]. rewrite <- Len in R.
      destruct (nth_error ll (k_index k)) as [l|] eqn:N; [|apply nth_error_None in N; lia].
      assert (Il : In l ll) by (eapply nth_error_In, N).
      assert (Nc : nth_error c (k_index k) = Some (print_items ind2 (map (fun o => match o with None => Undefined | Some x => print_info show ind2 x end) l)))
        by (unfold c; rewrite nth_error_map, N; reflexivity).
      assert (Nj : nth (k_index k) cj JNull = JArr (map (fun o => match o with None => JNull | Some x => JObj (fields x) end) l)).
      { apply nth_error_nth. unfold cj. rewrite nth_error_map, N. reflexivity. }
      destruct (print_items_ok ind2 W2 (map (fun o => match o with None => Undefined | Some x => print_info show ind2 x end) l)
        (map (fun o => match o with None => [] | Some x => fields x end) l)) as [u [Eu Bu]].
      { assert (Q : forall o, In o l -> exists x, o = Some x /\ sound D x /\ printable x).
        { intros o Io. destruct o as [x|]; [|exfalso; exact (Po l None Il Io eq_refl)].
          exists x. split; [reflexivity|]. destruct (go_item_of D data subs ks ll l x Wk Len Il Io) as [n0 [i G]].
          split; [exact (sound_go _ _ _ _ S G) | exact (printable_go _ _ _ P G)]. }
        assert (T : forall o, In o l -> exists t, match o with None => Undefined | Some x => print_info show ind2 x end = Ok t /\
          block (match o with None => [] | Some x => fields x end) t).
        { intros o Io. destruct (Q o Io) as [x [-> [Sx Px]]]. apply (IHl ks ll l x eq_refl Il Io Sx Px ind2 W2). }
        clear - T. induction l as [|o l IH]; cbn [map]; constructor.
        - apply (T o). left. reflexivity.
        - apply IH. intros o' I'. apply T. right. exact I'. }
      eexists. rewrite Nc, Eu. cbn [bind]. split; [reflexivity|]. cbn [fst snd]. rewrite Nj.
      replace ((ind1 ++ dq ++ n ++ dq ++ lit " : [" ++ nl ++ u) ++ ind1 ++ lit "]")
        with (ind1 ++ """"%char :: n ++ """"%char :: [" "%char] ++ ":"%char :: [" "%char] ++ (lit "[" ++ (nl ++ u ++ ind1) ++ lit "]") ++ []).
      2:{ cbn [lit list_ascii_of_string app nl dq]. rewrite app_nil_r. repeat (rewrite <- !app_assoc; cbn [app]). reflexivity. }
      apply m_field; [exact W1 | apply plain_chars, Np | reflexivity | reflexivity | | reflexivity].
      assert (El : map (fun o => match o with None => JNull | Some x => JObj (fields x) end) l =
        map JObj (map (fun o => match o with None => [] | Some x => fields x end) l)).
      { rewrite map_map. apply map_ext_in. intros o Io. destruct o as [x|]; [reflexivity|]. exfalso. exact (Po l None Il Io eq_refl). }
      rewrite El. destruct Bu as [[Bl ->]|Bu].
      + rewrite Bl. cbn [map]. apply (d_arr0 (nl ++ [] ++ ind1)). apply ws_app; [reflexivity | exact W1].
      + apply d_arr. apply elements_before; [|reflexivity]. apply elements_after; [exact Bu | exact W1].
    - exists t. split.
      + rewrite <- E. f_equal; cbn [lit list_ascii_of_string app nl]; rewrite <- app_assoc; reflexivity.
      + destruct B as [[B1 B2]|[t0 [B1 ->]]].
        * left. split; [rewrite Len; apply map_nonempty; assumption|]. rewrite B1. auto.
        * right. split; [|apply members_after; [exact B1 | reflexivity]].
          intros Z. rewrite Len in Z. rewrite (map_empty ks Wk Z) in B1. inversion B1. }
  (* sub-dictionaries *)
  set (F2 := match subs with
       | None => []
       | Some (ks, l) =>
           let c := map (fun o => JObj (match o with None => [] | Some x => fields x end)) l in
           map (fun e => (chars_of (fst e), nth (k_index (snd e)) c JNull)) (ks_map ks)
       end).
  assert (H2 : exists t2, B2 = Ok t2 /\ ((n_subs = 0 /\ F2 = [] /\ t2 = []) \/
    (n_subs <> 0 /\ exists t0, members F2 t0 /\ t2 = t0 ++ (if n_lists =? 0 then nl else lit "," ++ nl)))).
  { unfold B2, F2, n_subs. clear B2 H3 B3 F2 n_subs. destruct subs as [[ks l]|]; [|exists []; auto].
    destruct Ls as [Wk Len]. assert (Pn := Ps ks l eq_refl).
    set (c := map (fun o => match o with None => Ok [] | Some x => print_info show ind1 x end) l).
    set (cj := map (fun o => JObj (match o with None => [] | Some x => fields x end)) l).
    cbv zeta. fold cj.
    destruct (print_entries_ok (fun n k => match nth_error c (k_index k) with
        | None => Undefined
        | Some r => bind r (fun v => Ok (ind1 ++ dq ++ n ++ dq ++ lit " : {" ++ nl ++ v))
        end) (ind1 ++ lit "}") (if n_lists =? 0 then nl else lit "," ++ nl)
        (fun e => (chars_of (fst e), nth (k_index (snd e)) cj JNull)) (ks_map ks)) as [t [E B]].
    - intros n k I. destruct (entry_name ks n k Wk Pn I) as [Np [R _]]. rewrite <- Len in R.
      destruct (nth_error l (k_index k)) as [o|] eqn:N; [|apply nth_error_None in N; lia].
      assert (Io : In o l) by (eapply nth_error_In, N).
      assert (Nc : nth_error c (k_index k) = Some (match o with None => Ok [] | Some x => print_info show ind1 x end))
        by (unfold c; rewrite nth_error_map, N; reflexivity).
      assert (Nj : nth (k_index k) cj JNull = JObj (match o with None => [] | Some x => fields x end)).
      { apply nth_error_nth. unfold cj. rewrite nth_error_map, N. reflexivity. }
      assert (T : exists v, match o with None => Ok [] | Some x => print_info show ind1 x end = Ok v /\
        block (match o with None => [] | Some x => fields x end) v).
      { destruct o as [x|]; [|exists []; split; [reflexivity | left; auto]].
        destruct (go_sub_of D data ks l lists x Wk Len Io) as [n0 G].
        apply (IHs ks l x eq_refl Io (sound_go _ _ _ _ S G) (printable_go _ _ _ P G) ind1 W1). }
      destruct T as [v [Ev Bv]]. eexists. rewrite Nc, Ev. cbn [bind]. split; [reflexivity|]. cbn [fst snd]. rewrite Nj.
      replace ((ind1 ++ dq ++ n ++ dq ++ lit " : {" ++ nl ++ v) ++ ind1 ++ lit "}")
        with (ind1 ++ """"%char :: n ++ """"%char :: [" "%char] ++ ":"%char :: [" "%char] ++ (lit "{" ++ nl ++ v ++ ind1 ++ lit "}") ++ []).
      2:{ cbn [lit list_ascii_of_string app nl dq]. rewrite app_nil_r. repeat (rewrite <- !app_assoc; cbn [app]). reflexivity. }
      apply m_field; [exact W1 | apply plain_chars, Np | reflexivity | reflexivity | | reflexivity].
      apply object_derives; [exact Bv | reflexivity | exact W1].
    - exists t. split.
      + rewrite <- E. f_equal; [destruct (n_lists =? 0)|]; cbn [lit list_ascii_of_string app nl]; rewrite <- app_assoc; reflexivity.
      + destruct B as [[B1 B2]|[t0 [B1 ->]]].
        * left. split; [rewrite Len; apply map_nonempty; assumption|]. rewrite B1. auto.
        * right. split; [|exists t0; auto].
          intros Z. rewrite Len in Z. rewrite (map_empty ks Wk Z) in B1. inversion B1. }
  (* values *)
  set (F1 := match data with
       | None => []
       | Some ds => map (fun e => (chars_of (fst e), value_json (nth (k_index (snd e)) (ds_data ds) Unset))) (ks_map (ds_keys ds))
       end).
  change (fields (Dict data subs lists)) with (F1 ++ F2 ++ F3).
  match goal with |- context [bind ?a (fun t1 => bind B2 _)] => set (B1 := a) end.
  assert (H1 : exists t1, B1 = Ok t1 /\ ((F1 = [] /\ t1 = []) \/
    (exists t0, members F1 t0 /\ t1 = t0 ++ (if n_subs + n_lists =? 0 then nl else lit "," ++ nl)))).
  { unfold B1, F1. clear B1 F1 H2 H3. destruct data as [ds|]; [|exists []; auto].
    destruct Ld as [Wk [Len Ty]]. destruct (Pd ds eq_refl) as [Pn Pv'].
    destruct (print_entries_ok (fun n k => bind (print_entry show ds k) (fun v => Ok (ind1 ++ dq ++ n ++ dq ++ lit " : " ++ v)))
        [] (if n_subs + n_lists =? 0 then nl else lit "," ++ nl)
        (fun e => (chars_of (fst e), value_json (nth (k_index (snd e)) (ds_data ds) Unset))) (ks_map (ds_keys ds))) as [t [E B]].
    - intros n k I. destruct (entry_name _ n k Wk Pn I) as [Np [R Ip]]. rewrite <- Len in R.
      destruct (nth_error (ds_data ds) (k_index k)) as [v|] eqn:N; [|apply nth_error_None in N; lia].
      unfold print_entry. rewrite Ip, N. cbn [negb bind]. eexists. split; [reflexivity|]. cbn [fst snd].
      rewrite (nth_error_nth _ _ Unset N). rewrite app_nil_r.
      replace (ind1 ++ dq ++ n ++ dq ++ lit " : " ++ print_value show v)
        with (ind1 ++ """"%char :: n ++ """"%char :: [" "%char] ++ ":"%char :: [" "%char] ++ print_value show v ++ []).
      2:{ cbn [lit list_ascii_of_string app dq]. rewrite app_nil_r. repeat (rewrite <- !app_assoc; cbn [app]). reflexivity. }
      apply m_field; [exact W1 | apply plain_chars, Np | reflexivity | reflexivity | | reflexivity].
      apply value_derives, Pv'. eapply nth_error_In, N.
    - exists t. split; [exact E|]. destruct B as [[B1 ->]|[t0 [B1 ->]]]; [left; rewrite B1; auto | right; exists t0; auto]. }
  destruct H1 as [t1 [-> C1]]. destruct H2 as [t2 [-> C2]]. destruct H3 as [t3 [-> C3]]. cbn [bind].
  exists (t1 ++ t2 ++ t3). split; [reflexivity|].
  (* the sub-dictionaries and lists together *)
  assert (C23 : (n_subs + n_lists = 0 /\ F2 ++ F3 = [] /\ t2 ++ t3 = []) \/ (n_subs + n_lists <> 0 /\ members (F2 ++ F3) (t2 ++ t3))).
  { destruct C2 as [[Z2 [-> ->]]|[Z2 [t0 [M2 ->]]]]; cbn [app].
    - destruct C3 as [[Z3 [-> ->]]|[Z3 M3]]; [left; split; [lia | auto] | right; split; [lia | exact M3]].
    - right. split; [lia|]. destruct C3 as [[Z3 [-> ->]]|[Z3 M3]].
      + rewrite Z3. cbn [Nat.eqb]. rewrite !app_nil_r. apply members_after; [exact M2 | reflexivity].
      + assert (Z : (n_lists =? 0) = false) by (apply Nat.eqb_neq; exact Z3). rewrite Z.
        rewrite <- app_assoc. cbn [lit list_ascii_of_string app].
        apply members_app; [exact M2|]. apply (members_before F3 t3 nl M3). reflexivity. }
  destruct C1 as [[-> ->]|[t0 [M1 ->]]]; cbn [app].
  - destruct C23 as [[_ [-> ->]]|[_ M]]; [left; auto | right; exact M].
  - right. destruct C23 as [[Z [-> ->]]|[Z M]].
    + rewrite Z. cbn [Nat.eqb]. rewrite !app_nil_r. apply members_after; [exact M1 | reflexivity].
    + assert (Zb : (n_subs + n_lists =? 0) = false) by (apply Nat.eqb_neq; exact Z). rewrite Zb.
      rewrite <- app_assoc. cbn [lit list_ascii_of_string app].
      apply members_app; [exact M1|]. apply (members_before _ _ nl M). reflexivity.
Qed.

Theorem print_dict_ok (d : dict) : sound D d -> printable d ->
  exists t, print_dict show d = Ok t /\ json (JObj (fields d)) t.
Proof.
  intros S P. destruct (print_info_ok d S P [] eq_refl) as [t [E B]]. unfold print_dict. rewrite E. cbn [bind].
  eexists. split; [reflexivity|]. exists [], (lit "{" ++ nl ++ t ++ [] ++ lit "}"), []. split; [reflexivity|].
  split; [apply object_derives; auto; reflexivity|]. split; [reflexivity|]. rewrite app_nil_r. reflexivity.
Qed.

(** *** Every entry occurs exactly once *)

Lemma fields_names (d : dict) : map fst (fields d) =
  map (fun e => chars_of (fst e))
    ((match d_data d with Some ds => ks_map (ds_keys ds) | None => [] end) ++
     (match d_subs d with Some (ks, _) => ks_map ks | None => [] end) ++
     (match d_lists d with Some (ks, _) => ks_map ks | None => [] end)).
Proof.
  destruct d as [data subs lists]. cbn [fields d_data d_subs d_lists]. rewrite !map_app.
  f_equal; [destruct data; [|reflexivity]|f_equal; [destruct subs as [[ks l]|]; [|reflexivity] | destruct lists as [[ks l]|]; [|reflexivity]]];
  cbv zeta; rewrite map_map; reflexivity.
Qed.

Lemma map_names_perm ks : wf_keyset ks -> Permutation (map fst (ks_map ks)) (ks_names ks).
Proof.
  intros W. apply NoDup_Permutation; [apply (wf_map ks W) | apply (wf_names ks W)|].
  intros n. split; [|apply (wf_total ks W)]. intros I. apply in_map_iff in I. destruct I as [[n' k] [E I]].
  simpl in E. subst. destruct (wf_entry ks W n k I) as [_ [_ N]]. eapply nth_error_In, N.
Qed.

(** The member names of an object are the declared names, each exactly once. *)
Lemma fields_perm (d : dict) : sound D d -> Permutation (map fst (fields d))
  (map chars_of
    ((match d_data d with Some ds => ks_names (ds_keys ds) | None => [] end) ++
     (match d_subs d with Some (ks, _) => ks_names ks | None => [] end) ++
     (match d_lists d with Some (ks, _) => ks_names ks | None => [] end))).
Proof.
  intros S. rewrite fields_names. destruct (sound_level _ _ S) as [L1 [L2 L3]].
  rewrite <- (map_map fst chars_of). apply Permutation_map. rewrite !map_app.
  apply Permutation_app; [|apply Permutation_app].
  - destruct (d_data d) as [ds|]; [apply map_names_perm, L1 | constructor].
  - destruct (d_subs d) as [[ks l]|]; [apply map_names_perm, L2 | constructor].
  - destruct (d_lists d) as [[ks l]|]; [apply map_names_perm, L3 | constructor].
Qed.

(** The member of a name shows what is read by that name. *)
Lemma fields_value (d : dict) n : sound D d ->
  (forall t w, dict_get t d n = Ok w -> In (chars_of n, value_json w) (fields d)) /\
  (dict_is_set d n = Ok false -> In (chars_of n, JStr (chars_of (lit "Not Set."))) (fields d)).
Proof.
  intros S. destruct (sound_level _ _ S) as [L _]. destruct d as [[ds|] ss ll]; [|split; discriminate].
  destruct L as [W [Len Ty]]. unfold dict_get, dict_is_set. cbn [d_data fields].
  unfold get_value, is_set. destruct (pget_key (ds_keys ds) n) as [k|] eqn:K; [|split; discriminate].
  assert (I : In (n, k) (ks_map (ds_keys ds))) by (apply find_key_some, K).
  assert (M : forall v, nth_error (ds_data ds) (k_index k) = Some v ->
    In (chars_of n, value_json v) (map (fun e => (chars_of (fst e), value_json (nth (k_index (snd e)) (ds_data ds) Unset))) (ks_map (ds_keys ds)))).
  { intros v N. apply in_map_iff. exists (n, k). cbn [fst snd]. rewrite (nth_error_nth _ _ Unset N). auto. }
  destruct (nth_error (ds_data ds) (k_index k)) as [v|]; [|split; discriminate].
  split.
  - intros t w. destruct (held v) as [t'|]; [|discriminate]. destruct (ty_eqb t' t); [|discriminate].
    intros E. inversion E; subst. apply in_app_iff. left. apply M. reflexivity.
  - destruct v; try discriminate. intros _. apply in_app_iff. left. apply (M Unset). reflexivity.
Qed.
Lemma fields_sub (d : dict) n x : go d (Sub n) = Ok x -> In (chars_of n, JObj (fields x)) (fields d).
Proof.
  destruct d as [data [[ks l]|] ll]; [|discriminate]. cbn [go d_subs fields].
  destruct (pget_key ks n) as [k|] eqn:K; [|discriminate].
  destruct (nth_error l (k_index k)) as [[y|]|] eqn:N; try discriminate. intros E. inversion E; subst.
  apply in_app_iff. right. apply in_app_iff. left. cbv zeta. apply in_map_iff. exists (n, k). cbn [fst snd].
  split; [|apply find_key_some, K]. f_equal. apply nth_error_nth. rewrite nth_error_map, N. reflexivity.
Qed.
Lemma fields_item (d : dict) n i x : go d (Item n i) = Ok x ->
  exists l, In (chars_of n, JArr l) (fields d) /\ nth_error l i = Some (JObj (fields x)).
Proof.
  destruct d as [data ss [[ks ll]|]]; [|discriminate]. cbn [go d_lists fields].
  destruct (pget_key ks n) as [k|] eqn:K; [|discriminate].
  destruct (nth_error ll (k_index k)) as [l|] eqn:N; [|discriminate].
  destruct (nth_error l i) as [[y|]|] eqn:M; try discriminate. intros E. inversion E; subst.
  exists (map (fun o => match o with None => JNull | Some x => JObj (fields x) end) l). split.
  - apply in_app_iff. right. apply in_app_iff. right. cbv zeta. apply in_map_iff. exists (n, k). cbn [fst snd].
    split; [|apply find_key_some, K]. f_equal. apply nth_error_nth. rewrite nth_error_map, N. reflexivity.
  - rewrite nth_error_map, M. reflexivity.
Qed.

(** *** The names of the key sets *)

Definition plain_namesb (ks : keyset) : bool := forallb (fun n => forallb unescaped n) (ks_names ks).
Fixpoint namesb (d : dict) : bool :=
  match d with
  | Dict data subs lists =>
      (match data with None => true | Some ds => plain_namesb (ds_keys ds) end) &&
      (match subs with
       | None => true
       | Some (ks, l) => plain_namesb ks && forallb (fun o => match o with None => true | Some x => namesb x end) l
       end) &&
      (match lists with
       | None => true
       | Some (ks, ll) =>
           plain_namesb ks && forallb (fun l => forallb (fun o => match o with None => true | Some x => namesb x end) l) ll
       end)
  end.
Definition oname (o : option dict) : bool := match o with None => true | Some x => namesb x end.

Lemma plain_namesb_ok ks : plain_namesb ks = true -> names_plain ks.
Proof. unfold plain_namesb. rewrite forallb_forall. intros H n I. exact (H n I). Qed.

Lemma set_nth_forallb {A} (f : A -> bool) x l : forall i l', forallb f l = true -> f x = true -> set_nth i x l = Some l' -> forallb f l' = true.
Proof.
  induction l as [|y l IH]; intros i l' H X E; [discriminate E|]. simpl in H. apply andb_true_iff in H. destruct H as [Hy Hl].
  destruct i as [|i]; simpl in E.
  - inversion E. simpl. rewrite X, Hl. reflexivity.
  - destruct (set_nth i x l) as [l0|] eqn:F; [|discriminate E]. inversion E. simpl. rewrite Hy. exact (IH i l0 Hl X F).
Qed.
Lemma forallb_nth {A} (f : A -> bool) l i x : forallb f l = true -> nth_error l i = Some x -> f x = true.
Proof. rewrite forallb_forall. intros H N. apply H. eapply nth_error_In, N. Qed.

Lemma names_go (d : dict) s x : namesb d = true -> go d s = Ok x -> namesb x = true.
Proof.
  destruct d as [data subs lists]. cbn [namesb]. rewrite !andb_true_iff. intros [[_ B] C].
  destruct s as [n|n i]; cbn [go d_subs d_lists].
  - destruct subs as [[ks l]|]; [|discriminate]. apply andb_true_iff in B. destruct B as [_ B].
    destruct (pget_key ks n) as [k|]; [|discriminate]. destruct (nth_error l (k_index k)) as [[y|]|] eqn:N; try discriminate.
    intros E. inversion E; subst. exact (forallb_nth _ _ _ _ B N).
  - destruct lists as [[ks ll]|]; [|discriminate]. apply andb_true_iff in C. destruct C as [_ C].
    destruct (pget_key ks n) as [k|]; [|discriminate]. destruct (nth_error ll (k_index k)) as [l|] eqn:N; [|discriminate].
    destruct (nth_error l i) as [[y|]|] eqn:M; try discriminate.
    intros E. inversion E; subst. exact (forallb_nth _ _ _ _ (forallb_nth _ _ _ _ C N) M).
Qed.

Lemma names_put (d : dict) s x : namesb d = true -> namesb x = true -> namesb (put d s x) = true.
Proof.
  intros H X. destruct (put_cases D d s x) as [E|[P|P]]; [rewrite E; exact H| |].
  - destruct P as [n [ks [l [k [l' [_ [Es [_ [S E]]]]]]]]]. rewrite E. destruct d as [data subs lists]. simpl in Es. subst subs.
    cbn [namesb d_data d_lists] in *. rewrite !andb_true_iff in *. destruct H as [[A [K B]] C].
    repeat split; try assumption. exact (set_nth_forallb _ (Some x) l _ l' B X S).
  - destruct P as [n [i [ks [ll [k [l [l' [ll' [_ [Es [_ [N [S1 [S E]]]]]]]]]]]]]]. rewrite E. destruct d as [data subs lists]. simpl in Es. subst lists.
    cbn [namesb d_data d_subs] in *. rewrite !andb_true_iff in *. destruct H as [[A B] [K C]].
    repeat split; try assumption. refine (set_nth_forallb _ l' ll _ ll' C _ S).
    exact (set_nth_forallb _ (Some x) l _ l' (forallb_nth _ _ _ _ C N) X S1).
Qed.

Variable of_int : Z -> D.
Lemma names_act (d : dict) a : namesb d = true ->
  match a with SetVal _ _ => True | SetSub _ x | Append _ x => oname x = true end -> namesb (fst (act of_int d a)) = true.
Proof.
  intros H X. destruct a as [n v|n x|n x]; simpl.
  - destruct d as [[ds|] ss ll]; [|exact H]. cbn [dict_set]. assert (K := set_value_keys D of_int ds n v).
    destruct (set_value of_int ds n v) as [ds' r]. cbn [fst namesb] in *. rewrite K. exact H.
  - destruct d as [v [[ks l]|] ll]; [|exact H]. unfold dict_set_sub. destruct (pget_key ks n) as [k|]; [|exact H].
    destruct (set_nth (k_index k) x l) as [l'|] eqn:E; [|exact H]. cbn [fst namesb] in *.
    rewrite !andb_true_iff in *. destruct H as [[A [K B]] C].
    repeat split; try assumption. exact (set_nth_forallb _ x l _ l' B X E).
  - destruct d as [v ss [[ks ll]|]]; [|exact H]. unfold dict_append. destruct (pget_key ks n) as [k|]; [|exact H].
    destruct (nth_error ll (k_index k)) as [l|] eqn:N; [|exact H].
    destruct (set_nth (k_index k) (l ++ [x]) ll) as [l'|] eqn:E; [|exact H]. cbn [fst namesb] in *.
    rewrite !andb_true_iff in *. destruct H as [[A B] [K C]].
    repeat split; try assumption. refine (set_nth_forallb _ (l ++ [x]) ll _ l' C _ E).
    rewrite forallb_app. rewrite (forallb_nth _ _ _ _ C N). simpl. unfold oname in X. rewrite X. reflexivity.
Qed.
Lemma names_act_at p : forall (d : dict) a, namesb d = true ->
  match a with SetVal _ _ => True | SetSub _ x | Append _ x => oname x = true end -> namesb (fst (act_at of_int d p a)) = true.
Proof.
  induction p as [|s p IH]; intros d a H X; [apply names_act; assumption|].
  cbn [act_at]. destruct (go d s) as [d'| | |] eqn:G; try exact H.
  assert (I := IH d' a (names_go d s d' H G) X). destruct (act_at of_int d' p a) as [d'' r]. cbn [fst] in *.
  apply names_put; assumption.
Qed.

(** The contents that can be written: strings without characters that would
    have to be escaped, finite numbers, no null entries in lists. *)
Definition level_writable (d : dict) : Prop :=
  (forall ds v, d_data d = Some ds -> In v (ds_data ds) -> value_printable v) /\
  (forall ks ll l o, d_lists d = Some (ks, ll) -> In l ll -> In o l -> o <> None).
Definition writable (d : dict) : Prop := forall p x, walk d p = Ok x -> level_writable x.

Lemma names_walk p : forall (d : dict) x, namesb d = true -> walk d p = Ok x -> namesb x = true.
Proof.
  induction p as [|s p IH]; intros d x H W; simpl in W; [inversion W; subst; exact H|].
  destruct (go d s) as [d'| | |] eqn:G; simpl in W; try discriminate. exact (IH d' x (names_go _ _ _ H G) W).
Qed.
Lemma writable_printable (d : dict) : namesb d = true -> writable d -> printable d.
Proof.
  intros H W p x E. destruct (W p x E) as [A B]. assert (N := names_walk p d x H E).
  destruct x as [data subs lists]. cbn [namesb] in N. rewrite !andb_true_iff in N. destruct N as [[N1 N2] N3].
  split; [|split]; cbn [d_data d_subs d_lists] in *.
  - intros ds ->. split; [apply plain_namesb_ok, N1 | intros v; apply A; reflexivity].
  - intros ks l ->. apply andb_true_iff in N2. apply plain_namesb_ok, N2.
  - intros ks ll ->. apply andb_true_iff in N3. split; [apply plain_namesb_ok, N3 | intros l o; apply (B ks ll); reflexivity].
Qed.

(** A check of [writable]. *)
Definition value_printableb (v : value) : bool :=
  match v with
  | VString s => forallb unescaped s
  | VDouble d => is_number (show d)
  | VPoint a b c => is_number (show a) && is_number (show b) && is_number (show c)
  | _ => true
  end.
Fixpoint writableb (d : dict) : bool :=
  match d with
  | Dict data subs lists =>
      (match data with None => true | Some ds => forallb value_printableb (ds_data ds) end) &&
      (match subs with None => true | Some (_, l) => forallb (fun o => match o with None => true | Some x => writableb x end) l end) &&
      (match lists with
       | None => true
       | Some (_, ll) => forallb (fun l => forallb (fun o => match o with None => false | Some x => writableb x end) l) ll
       end)
  end.
Lemma writableb_ok p : forall (d : dict) x, writableb d = true -> walk d p = Ok x -> level_writable x.
Proof.
  induction p as [|s p IH]; intros d x H W; simpl in W.
  - inversion W; subst. destruct x as [data subs lists]. cbn [writableb] in H. rewrite !andb_true_iff in H. destruct H as [[A _] C].
    split; cbn [d_data d_lists].
    + intros ds v -> I. rewrite forallb_forall in A. specialize (A v I). destruct v; try exact I; simpl in *; auto.
      rewrite !andb_true_iff in A. tauto.
    + intros ks ll l o -> I J ->. rewrite forallb_forall in C. specialize (C l I). rewrite forallb_forall in C. discriminate (C None J).
  - destruct (go d s) as [d'| | |] eqn:G; simpl in W; try discriminate. apply (IH d' x); [|exact W]. clear - H G.
    destruct d as [data subs lists]. cbn [writableb] in H. rewrite !andb_true_iff in H. destruct H as [[_ B] C].
    destruct s as [n|n i]; cbn [go d_subs d_lists] in G.
    + destruct subs as [[ks l]|]; [|discriminate]. destruct (pget_key ks n) as [k|]; [|discriminate].
      destruct (nth_error l (k_index k)) as [[y|]|] eqn:N; try discriminate. inversion G; subst.
      exact (forallb_nth _ _ _ _ B N).
    + destruct lists as [[ks ll]|]; [|discriminate]. destruct (pget_key ks n) as [k|]; [|discriminate].
      destruct (nth_error ll (k_index k)) as [l|] eqn:N; [|discriminate].
      destruct (nth_error l i) as [[y|]|] eqn:M; try discriminate. inversion G; subst.
      exact (forallb_nth _ _ _ _ (forallb_nth _ _ _ _ C N) M).
Qed.

End Doubles.
