(** Property C28: key names and key ids are in bijection. *)
From Coq Require Import String Ascii Bool Arith List Lia Permutation.
From Verif Require Import KeysModel KeysProofs SettingsKeys DictModel SettingsModel SettingsProofs.
Import ListNotations.
Local Open Scope string_scope.
Local Open Scope nat_scope.

(** The names of a declaration "n0, n1, ..." are found in order, whatever the
    blanks before the names. *)
Theorem C28_declaration_is_split : forall l, l <> [] ->
  Forall (fun e => Forall (fun c => is_blank c = true) (fst e) /\ good_name (snd e)) l ->
  split_names (declaration l) = map snd l.
Proof. exact split_declaration. Qed.
Print Assumptions C28_declaration_is_split.

Example C28_split_example :
  split_names (lit "grid_type,  lower_bound_xyz, p") = [lit "grid_type"; lit "lower_bound_xyz"; lit "p"].
Proof.
  change (lit "grid_type,  lower_bound_xyz, p")
    with (declaration [([], lit "grid_type"); (lit "  ", lit "lower_bound_xyz"); (lit " ", lit "p")]).
  rewrite C28_declaration_is_split; [reflexivity | discriminate |].
  repeat constructor; try discriminate; reflexivity.
Qed.

(** The array of names has room for exactly the names found, for every text
    (no write outside the array, no entry left empty). *)
Theorem C28_array_size : forall s, length (split_names s) = count_items s.
Proof. exact split_names_length. Qed.
Print Assumptions C28_array_size.

(** Registering keys of the set succeeds exactly if every declared key is
    registered (a key registered twice is kept once). *)
Theorem C28_registration_exact : forall id decl keys,
  NoDup (split_names decl) -> own_keys id (split_names decl) keys ->
  ((exists ks, register id decl keys = Some ks) <->
   (forall i, i < length (split_names decl) -> exists k, In k keys /\ k_index k = i)).
Proof. exact register_iff. Qed.
Print Assumptions C28_registration_exact.

(** In a registered key set name -> id -> name and id -> name -> id are
    identities, exactly the declared names are known, and ids are in range. *)
Lemma bijection id decl keys ks :
  NoDup (split_names decl) -> own_keys id (split_names decl) keys -> register id decl keys = Some ks ->
  (forall n, In n (split_names decl) <-> exists k, pget_key ks n = Some k) /\
  (forall n k, pget_key ks n = Some k ->
     k_index k < count_items decl /\ nth_error (split_names decl) (k_index k) = Some n /\ k_name k = n /\ k_set k = id) /\
  (forall i, i < count_items decl ->
     exists n k, nth_error (split_names decl) i = Some n /\ pget_key ks n = Some k /\ k_index k = i) /\
  (forall n n' k k', pget_key ks n = Some k -> pget_key ks n' = Some k' -> k_index k = k_index k' -> n = n').
Proof.
  intros ND OK R. destruct (register_wf id decl keys ks ND OK R) as [W [E I]].
  split; [|split; [|split]].
  - intros n. rewrite <- E. split; [apply pget_key_total, W|].
    intros [k H]. destruct (pget_key_wf ks n k W H) as [_ [_ [_ N]]]. eapply nth_error_In, N.
  - intros n k H. destruct (pget_key_wf ks n k W H) as [A [B [C N]]].
    rewrite <- split_names_length, <- E, <- I. auto.
  - intros i Hi. rewrite <- split_names_length, <- E in Hi.
    destruct (keys_all_in ks W i Hi) as [n [k [J K]]]. exists n, k.
    assert (P : pget_key ks n = Some k) by (apply find_key_in; [apply (wf_map ks W) | exact J]).
    destruct (pget_key_wf ks n k W P) as [_ [_ [_ N]]]. rewrite <- E, <- K. auto.
  - intros n n' k k'. apply pget_key_inj, W.
Qed.
Theorem C28_names_and_ids_biject : forall id decl keys ks,
  NoDup (split_names decl) -> own_keys id (split_names decl) keys -> register id decl keys = Some ks ->
  (forall n, In n (split_names decl) <-> exists k, pget_key ks n = Some k) /\
  (forall n k, pget_key ks n = Some k ->
     k_index k < count_items decl /\ nth_error (split_names decl) (k_index k) = Some n /\ k_name k = n /\ k_set k = id) /\
  (forall i, i < count_items decl ->
     exists n k, nth_error (split_names decl) i = Some n /\ pget_key ks n = Some k /\ k_index k = i) /\
  (forall n n' k k', pget_key ks n = Some k -> pget_key ks n' = Some k' -> k_index k = k_index k' -> n = n').
Proof. exact bijection. Qed.
Print Assumptions C28_names_and_ids_biject.

(** All key sets of the library are registered when it is loaded and satisfy
    the above. *)
Theorem C28_library_key_sets : all_registrations = map (@Some keyset) all_keysets /\ Forall wf_keyset all_keysets.
Proof. exact all_registered. Qed.
Print Assumptions C28_library_key_sets.

Example C28_library_example :
  length all_keysets = 18 /\
  option_map k_index (pget_key BackgroundGridSettings_Values (lit "polynomial_order")) = Some 5 /\
  pget_key BackgroundGridSettings_Values (lit "polynomial_orde") = None.
Proof. repeat split; vm_compute; reflexivity. Qed.

(** Without the condition that the registered keys belong to the set the claim
    is false: a key of another set with a declared name is accepted, and its id
    is then the id of another key. *)
Lemma foreign_key : exists id decl keys ks n k,
  NoDup (split_names decl) /\ register id decl keys = Some ks /\
  pget_key ks n = Some k /\ k_set k <> id /\ nth_error (split_names decl) (k_index k) <> Some n.
Proof.
  set (decl := lit "condition_id, condition_type, input_filename").
  set (own := fun i => define_key 7 (split_names decl) (i, Some TIndex, true)).
  set (keys := [own 0; own 1; GeneralSettings_input_filename]).
  exists 7, decl, keys.
  exists {| ks_id := 7; ks_names := split_names decl; ks_map := map key_entry keys |}.
  exists (lit "input_filename"), GeneralSettings_input_filename.
  split; [apply nodupb_ok; vm_compute; reflexivity|].
  split; [vm_compute; reflexivity|]. split; [vm_compute; reflexivity|].
  split; vm_compute; discriminate.
Qed.
Theorem C28_foreign_key_refuted : exists id decl keys ks n k,
  NoDup (split_names decl) /\ register id decl keys = Some ks /\
  pget_key ks n = Some k /\ k_set k <> id /\ nth_error (split_names decl) (k_index k) <> Some n.
Proof. exact foreign_key. Qed.
Print Assumptions C28_foreign_key_refuted.
