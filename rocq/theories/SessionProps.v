(** Property C72: what a model and its files contain after any sequence of calls. *)
From Coq Require Import String Ascii Bool NArith ZArith QArith Reals Lra Arith List Lia.
From Verif Require Import KeysModel KeysProofs SettingsKeys DictModel DictProofs SettingsModel SettingsProofs JsonModel BufferModel MeshModel StlModel StlProofs StlProps VtkModel ConditionStlProps SessionModel SessionProofs SessionCalls SessionHistory SessionSequence.
From Verif Require SettingsProps.
Import ListNotations.
Local Open Scope nat_scope.
Notation read := DictProofs.read.

(** A session: settings from the factory that were changed by any history of assignments and appends and are accepted, a model that is
    created with them, and any sequence of calls, whose exceptions are caught. *)
Definition session {D} (w : world D) (of_int : Z -> D) (st : dict D) (files : text -> option bytes) (calls : list (call D)) (s : state D) (rs : list (reply unit)) : Prop :=
  exists d ops s0, create_settings (w_dbl w) = Ok d /\ Forall (user_op D) ops /\ st = DictModel.run of_int d ops /\
    create_model w st files = Ok s0 /\ run_calls w st calls s0 = Some (s, rs).

Lemma session_reads {D} (w : world D) of_int st files calls s rs : session w of_int st files calls s rs ->
  exists s0 echo on dir file, create_model w st files = Ok s0 /\ run_calls w st calls s0 = Some (s, rs) /\ readable D st echo /\ outputs D st echo on dir /\
    (exists g, general st = Ok g /\ get_text g GeneralSettings_input_filename = Ok file) /\
    read D st [Sub (lit "general_settings")] TBool (lit "write_output_to_file") = Ok (VBool on) /\ read D st [Sub (lit "general_settings")] TString (lit "output_directory_name") = Ok (VString dir) /\
    read D st [Sub (lit "general_settings")] TString (lit "input_filename") = Ok (VString file).
Proof.
  intros (d & ops & s0 & C & U & -> & M & R). destruct (history_structure D of_int (w_dbl w) d ops C U) as [S T].
  assert (Ck : check_settings (DictModel.run of_int d ops) = Ok tt). { unfold create_model in M. destruct (check_settings (DictModel.run of_int d ops)) as [[]| | |]; [reflexivity | discriminate M ..]. }
  destruct (accepted_readable D _ S T Ck) as (echo & on & dir & file & H). exists s0, echo, on, dir, file. tauto.
Qed.
Lemma session_inv {D} (w : world D) of_int st files calls s rs : session w of_int st files calls s rs -> exists f, consistent D w s f.
Proof. intros H. destruct (session_reads _ _ _ _ _ _ _ H) as (s0 & echo & on & dir & file & C & R & Rd & Ro & _). exact (inv_run D w st echo on dir Rd Ro files s0 calls s rs C R). Qed.

(** The elapsed times. [st_log]: what the calls have measured, in the order of the calls. *)
Theorem C72_times : forall D (w : world D) of_int st files calls s rs, session w of_int st files calls s rs ->
  let sum l := fold_left (w_add w) l (w_dbl w 0%Q) in
  let time p := read D (st_info s) (Sub (lit "elapsed_time_info") :: p) TDouble (lit "total") in
  time [] = Ok (VDouble (sum (map snd (st_log s)))) /\
  time [Sub (lit "conditions_time_info")] = Ok (VDouble (sum (times_of TimeCondition (st_log s)))) /\
  time [Sub (lit "volume_time_info")] = Ok (VDouble (last (times_of TimeVolume (st_log s)) (w_dbl w 0%Q))) /\
  time [Sub (lit "write_files_time_info")] = Ok (VDouble (last (times_of TimeWrite (st_log s)) (w_dbl w 0%Q))).
Proof.
  intros D w of_int st files calls s rs H. destruct (session_inv w of_int st files calls s rs H) as (f & E & T1 & T2 & T3 & T4 & _). cbv zeta. rewrite E, read_total, read_vtotal, read_ctotal, read_wtotal, T1, T2, T3, T4. auto.
Qed.
Print Assumptions C72_times.

(** With real numbers the total is the sum of its parts, if at most one volume was computed and files were written at most once. *)
Lemma sum_split (l : list (kind * R)) : forall a, fold_left Rplus (map snd l) a =
  (a + (fold_left Rplus (times_of TimeVolume l) 0 + fold_left Rplus (times_of TimeCondition l) 0 + fold_left Rplus (times_of TimeWrite l) 0))%R.
Proof.
  assert (K : forall m a, fold_left Rplus m a = (a + fold_left Rplus m 0)%R). { induction m as [|x m IH]; intros a; cbn [fold_left]; [lra|]. rewrite IH, (IH (0 + x)%R). lra. }
  induction l as [|[k t] l IH]; intros a; cbn [map fold_left snd]; [cbn; lra|]. rewrite IH. unfold times_of. destruct k; cbn [List.filter fst kind_eqb map snd fold_left]; match goal with |- context [fold_left Rplus ?m (0 + t)%R] => rewrite (K m (0 + t)%R) end; lra.
Qed.
Lemma total_is_sum (w : world R) of_int st files calls s rs : session w of_int st files calls s rs -> w_add w = Rplus -> w_dbl w 0%Q = 0%R ->
  length (times_of TimeVolume (st_log s)) <= 1 -> length (times_of TimeWrite (st_log s)) <= 1 ->
  exists v c wr, read R (st_info s) [Sub (lit "elapsed_time_info"); Sub (lit "volume_time_info")] TDouble (lit "total") = Ok (VDouble v) /\
    read R (st_info s) [Sub (lit "elapsed_time_info"); Sub (lit "conditions_time_info")] TDouble (lit "total") = Ok (VDouble c) /\
    read R (st_info s) [Sub (lit "elapsed_time_info"); Sub (lit "write_files_time_info")] TDouble (lit "total") = Ok (VDouble wr) /\
    read R (st_info s) [Sub (lit "elapsed_time_info")] TDouble (lit "total") = Ok (VDouble (v + c + wr)%R).
Proof.
  intros H A Z L1 L2. destruct (C72_times R w of_int st files calls s rs H) as (E1 & E2 & E3 & E4). rewrite A, Z in E1, E2. rewrite Z in E3, E4.
  do 3 eexists. split; [exact E3|]. split; [exact E2|]. split; [exact E4|]. rewrite E1. do 2 f_equal. rewrite (sum_split (st_log s)).
  destruct (times_of TimeVolume (st_log s)) as [|a [|]]; cbn in L1; [| |lia]; destruct (times_of TimeWrite (st_log s)) as [|b [|]]; cbn in L2; try lia; cbn [fold_left last]; lra.
Qed.
Theorem C72_total_is_sum : forall (w : world R) of_int st files calls s rs, session w of_int st files calls s rs -> w_add w = Rplus -> w_dbl w 0%Q = 0%R ->
  length (times_of TimeVolume (st_log s)) <= 1 -> length (times_of TimeWrite (st_log s)) <= 1 ->
  exists v c wr, read R (st_info s) [Sub (lit "elapsed_time_info"); Sub (lit "volume_time_info")] TDouble (lit "total") = Ok (VDouble v) /\
    read R (st_info s) [Sub (lit "elapsed_time_info"); Sub (lit "conditions_time_info")] TDouble (lit "total") = Ok (VDouble c) /\
    read R (st_info s) [Sub (lit "elapsed_time_info"); Sub (lit "write_files_time_info")] TDouble (lit "total") = Ok (VDouble wr) /\
    read R (st_info s) [Sub (lit "elapsed_time_info")] TDouble (lit "total") = Ok (VDouble (v + c + wr)%R).
Proof. exact total_is_sum. Qed.
Print Assumptions C72_total_is_sum.

(** The counts agree with the elements that the model returns, from the first computed volume on. *)
Definition all_points {D} (l : list (element D)) : nat := list_sum (map (fun e => length (el_points e)) l).
Lemma points_split D (f : element D -> bool) l : forall a b, fold_left (fun n e => if f e then n + length (el_points e) else n) l a + fold_left (fun n e => if negb (f e) then n + length (el_points e) else n) l b = a + b + all_points l.
Proof.
  induction l as [|e l IH]; intros a b; cbn [fold_left]; [cbn; lia|]. change (all_points (e :: l)) with (length (el_points e) + all_points l). destruct (f e); cbn [negb]; rewrite IH; lia.
Qed.
Theorem C72_counts : forall D (w : world D) of_int st files calls s rs, session w of_int st files calls s rs ->
  (times_of TimeVolume (st_log s) = [] /\ st_elements s = []) \/
  let els := st_elements s in let trimmed := length (List.filter el_trimmed els) in
  grid_entry D (st_info s) (lit "num_active_elements") = Ok (VIndex (N.of_nat (length els))) /\
  grid_entry D (st_info s) (lit "num_trimmed_elements") = Ok (VIndex (N.of_nat trimmed)) /\
  grid_entry D (st_info s) (lit "num_full_elements") = Ok (VIndex (N.of_nat (length els - trimmed))) /\
  grid_entry D (st_info s) (lit "num_inactive_elements") = Ok (VIndex (en_cells (w_engine w) - N.of_nat (length els))) /\
  read D (st_info s) [Sub (lit "quadrature_info")] TIndex (lit "tot_num_points") = Ok (VIndex (N.of_nat (all_points els))) /\
  read D (st_info s) [Sub (lit "quadrature_info")] TDouble (lit "represented_volume") = Ok (VDouble (en_represented (w_engine w) els)).
Proof.
  intros D w of_int st files calls s rs H. destruct (session_inv w of_int st files calls s rs H) as (f & E & _ & _ & _ & _ & _ & K). destruct (times_of TimeVolume (st_log s)); [left; destruct K as [-> _]; auto|].
  right. cbv zeta. rewrite E. destruct K as (K1 & K2 & K3 & K4 & K5 & K6 & _). destruct (read_counts D f _ _ _ _ _ _ K1 K2 K3 K4 K5 K6) as (R1 & R2 & R3 & R4 & R5 & R6). rewrite R1, R2, R3, R4, R5, R6.
  repeat split. - do 2 f_equal. unfold count. lia. - do 2 f_equal. unfold points. rewrite <- Nnat.Nat2N.inj_add. rewrite (points_split D el_trimmed (st_elements s) 0 0). reflexivity.
Qed.
Print Assumptions C72_counts.

(** The entries of conditions_infos_list that have a percentage belong, in this order, to the conditions that the model returns; the others
    were left by calls that threw an exception. *)
Theorem C72_conditions : forall D (w : world D) of_int st files calls s rs, session w of_int st files calls s rs ->
  exists l, lists D (st_info s) l /\
    Forall2 (fun c i => get_index (fst c) ConditionSettings_condition_id = Ok (ci_id i)) (st_conditions s) (List.filter (fun i => match ci_percent i with Some _ => true | None => false end) l) /\
    (Forall (fun r => r = Return tt) rs -> Forall (fun i => ci_percent i <> None) l).
Proof.
  intros D w of_int st files calls s rs H. destruct (session_reads _ _ _ _ _ _ _ H) as (s0 & echo & on & dir & file & C & R & Rd & Ro & _).
  pose proof (inv_run D w st echo on dir Rd Ro files s0 calls s rs C R) as (f & Cs). exists (f_infos f). split; [|split].
  - destruct Cs as (E & _). rewrite E. apply read_infos.
  - destruct Cs as (_ & _ & _ & _ & _ & C' & _). exact C'.
  - intros F. destruct (clean_run D w st echo on dir Rd Ro calls false s0 s rs (clean_start D w st files s0 C) R F) as (f' & Cs' & P & _).
    assert (E : dict_of f = dict_of f') by exact (eq_trans (eq_sym (proj1 Cs)) (proj1 Cs')). pose proof (read_infos D f) as L. pose proof (read_infos D f') as L'. rewrite E in L.
    rewrite Forall_forall. intros i Ii. apply In_nth_error in Ii. destruct Ii as (n & N). specialize (L n). specialize (L' n). rewrite N in L. destruct L as (_ & L2 & L). destruct (nth_error (f_infos f') n) as [c|] eqn:N'.
    + destruct L' as (_ & _ & L'). rewrite forallb_forall in P. apply nth_error_In in N'. specialize (P c N'). unfold has_percent in P. destruct (ci_percent c) as [p|]; [|discriminate P]. rewrite L in L'. intros Q. rewrite Q in L'. discriminate L'.
    + unfold DictProofs.read in L2. rewrite L' in L2. discriminate L2.
Qed.
Print Assumptions C72_conditions.
(** If all calls returned and one of them computed the volume, then the model info is complete. *)
Theorem C72_complete : forall D (w : world D) of_int st files calls s rs, session w of_int st files calls s rs ->
  Forall (fun r => r = Return tt) rs -> (exists c, In c calls /\ (c = CreateAllFromSettings \/ exists m, c = CreateVolume m)) -> check_required (st_info s) = Ok tt.
Proof.
  intros D w of_int st files calls s rs H F (c & Ic & Hc). destruct (session_reads _ _ _ _ _ _ _ H) as (s0 & echo & on & dir & file & C & R & Rd & Ro & _).
  destruct (clean_run D w st echo on dir Rd Ro calls false s0 s rs (clean_start D w st files s0 C) R F) as (f & Cs & P & V). apply (clean_check D w s f Cs P). apply V. cbn [orb].
  apply existsb_exists. exists c. split; [exact Ic|]. destruct Hc as [-> | (m & ->)]; reflexivity.
Qed.
Print Assumptions C72_complete.

(** CreateAllFromSettings does what the single calls do, one after the other: CreateVolume with the mesh of the input file, CreateCondition
    with the mesh of the file of each condition, WriteModelToFile. An exception ends both at the same point. *)
Theorem C72_all_is_sequence : forall D (w : world D) of_int st files calls s rs file m items, session w of_int st files calls s rs ->
  read D st [Sub (lit "general_settings")] TString (lit "input_filename") = Ok (VString file) -> loads D w (st_files s) file m ->
  key_list st MainSettings_conditions_settings_list = Ok (map (fun c => Some (fst c)) items) ->
  Forall (fun c => exists file, get_text (fst c) ConditionSettings_input_filename = Ok file /\ loads D w (st_files s) file (snd c)) items ->
  do_call w st CreateAllFromSettings s = in_order D w st ([CreateVolume m] ++ map (fun c => CreateCondition (snd c) (fst c)) items ++ [WriteModelToFile]) s.
Proof.
  intros D w of_int st files calls s rs file m items H Rf L K F. destruct (session_reads _ _ _ _ _ _ _ H) as (s0 & echo & on & dir & file' & C & R & Rd & Ro & (g & G & T) & _ & _ & Rf').
  assert (file' = file) by congruence. subst file'. exact (all_sequence D w st echo on dir Rd Ro s g file m items (inv_run D w st echo on dir Rd Ro files s0 calls s rs C R) G T L K F).
Qed.
Print Assumptions C72_all_is_sequence.

(** The files that WriteModelToFile leaves: the elements, their points, the triangles of the last condition with each identifier, and the
    model info as it is after the call. *)
Theorem C72_written : forall D (w : world D) of_int st files calls s rs dir s', session w of_int st files calls s rs ->
  read D st [Sub (lit "general_settings")] TBool (lit "write_output_to_file") = Ok (VBool true) ->
  read D st [Sub (lit "general_settings")] TString (lit "output_directory_name") = Ok (VString dir) ->
  do_call w st WriteModelToFile s = (s', Return tt) ->
  st_elements s' = st_elements s /\ st_conditions s' = st_conditions s /\
  (exists b, write_elements_vtk D (w_bits w) (w_show15 w) (w_disk w (dir ++ lit "/elements.vtk")) (w_host w) (w_size w) (map el_box (st_elements s)) enc_binary = Saved b /\ st_files s' (dir ++ lit "/elements.vtk") = Some b) /\
  (exists b, write_points_vtk D (w_bits w) (w_show15 w) (w_disk w (dir ++ lit "/integration_points.vtk")) (w_host w) (w_size w) (map el_points (st_elements s)) enc_binary = Saved b /\ st_files s' (dir ++ lit "/integration_points.vtk") = Some b) /\
  (forall i, (exists c, In c (st_conditions s) /\ get_index (fst c) ConditionSettings_condition_id = Ok i) -> exists pre c post b, st_conditions s = pre ++ c :: post /\
     get_index (fst c) ConditionSettings_condition_id = Ok i /\ (forall c', In c' post -> get_index (fst c') ConditionSettings_condition_id <> Ok i) /\
     let n := dir ++ lit "/condition_id_" ++ show_index i ++ lit ".stl" in
     write_condition (w_to_float w) (w_show6 w) (w_disk w n) (w_host w) (w_size w) (snd c) enc_binary = Saved b /\ st_files s' n = Some b) /\
  (exists b, print_dict (w_show w) (st_info s') = Ok b /\ st_files s' (dir ++ lit "/model_info.json") = Some b).
Proof.
  intros D w of_int st files calls s rs dir s' H Ron Rdir W. destruct (session_reads _ _ _ _ _ _ _ H) as (s0 & echo & on & dir' & file & C & R & Rd & Ro & _ & E1 & E2 & _).
  assert (on = true) by congruence. assert (dir' = dir) by congruence. subst on dir'. pose proof (inv_run D w st echo true dir Rd Ro files s0 calls s rs C R) as (f & Cs). assert (E := proj1 Cs). destruct s as [d els conds fl log]. cbn [st_info] in E. subst d.
  pose proof (write_call D w st echo true dir Ro f els conds fl log) as X. cbn [do_call] in W. rewrite W in X. cbn zeta in X. destruct X as (fl' & _ & -> & X). cbn [st_elements st_conditions st_files st_info]. destruct X as (X1 & X2 & X3 & (b & X4 & X5)).
  split; [reflexivity|]. split; [reflexivity|]. split; [exact X1|]. split; [exact X2|]. split; [exact X3|]. exists b. split; [apply (json_text D w) with (disk := w_disk w (dir ++ lit "/model_info.json")); exact X4 | exact X5].
Qed.
Print Assumptions C72_written.
(** With different identifiers the file of each condition reads back as the triangles of this condition, in single precision. *)
Lemma condition_files_read D (w : world D) of_int st files calls s rs dir s' c i ls : session w of_int st files calls s rs ->
  read D st [Sub (lit "general_settings")] TBool (lit "write_output_to_file") = Ok (VBool true) ->
  read D st [Sub (lit "general_settings")] TString (lit "output_directory_name") = Ok (VString dir) ->
  do_call w st WriteModelToFile s = (s', Return tt) ->
  NoDup (map (fun c => get_index (fst c) ConditionSettings_condition_id) (st_conditions s)) ->
  (w_size w < 2 ^ 63)%N -> (forall n a b, w_disk w n a b = None) -> (forall d, (w_to_float w d < 2 ^ 32)%N) -> w_host w = little ->
  In c (st_conditions s) -> get_index (fst c) ConditionSettings_condition_id = Ok i ->
  segments_have (snd c) ls -> (N.of_nat (length (concat ls)) < 2 ^ 32)%N ->
  let ts := map (fun q => round_tri D (w_to_float w) (w_of_float w) (fst q)) (concat ls) in separated D (w_less w) (points_of ts) ->
  exists m, loads D w (st_files s') (dir ++ lit "/condition_id_" ++ show_index i ++ lit ".stl") m /\ merged D (w_normal w) ts m.
Proof.
  intros H Ron Rdir W Nd Sz Dk Fl Ho Ic Ei Sg Ln ts Sp. destruct (C72_written D w of_int st files calls s rs dir s' H Ron Rdir W) as (_ & _ & _ & _ & X & _).
  destruct (X i) as (pre & c' & post & b & Q & Ec' & _ & Wb & Fb); [exists c; auto|].
  assert (c' = c).
  { assert (Ic' : In c' (st_conditions s)) by (rewrite Q; apply in_elt). apply In_nth_error in Ic, Ic'. destruct Ic as (k & N1), Ic' as (k' & N2).
    assert (k = k'). { apply (NoDup_nth_error (map (fun c => get_index (fst c) ConditionSettings_condition_id) (st_conditions s))); [exact Nd | rewrite map_length; apply nth_error_Some; congruence|]. rewrite !nth_error_map, N1, N2. cbn [option_map]. congruence. }
    subst k'. congruence. }
  subst c'. destruct (C61_binary D (w_to_float w) (w_of_float w) (w_show6 w) (w_scan w) (w_less w) (w_normal w) (w_disk w (dir ++ lit "/condition_id_" ++ show_index i ++ lit ".stl")) (w_host w) (w_size w) (snd c) ls Sz (Dk _) Fl Sg Ln Sp) as (b' & m & W' & L' & Mg).
  exists m. split; [|exact Mg]. exists b. split; [exact Fb|]. rewrite Ho. assert (b = b') by congruence. subst b'. exact L'.
Qed.
Theorem C72_condition_files : forall D (w : world D) of_int st files calls s rs dir s' c i ls, session w of_int st files calls s rs ->
  read D st [Sub (lit "general_settings")] TBool (lit "write_output_to_file") = Ok (VBool true) ->
  read D st [Sub (lit "general_settings")] TString (lit "output_directory_name") = Ok (VString dir) ->
  do_call w st WriteModelToFile s = (s', Return tt) ->
  NoDup (map (fun c => get_index (fst c) ConditionSettings_condition_id) (st_conditions s)) ->
  (w_size w < 2 ^ 63)%N -> (forall n a b, w_disk w n a b = None) -> (forall d, (w_to_float w d < 2 ^ 32)%N) -> w_host w = little ->
  In c (st_conditions s) -> get_index (fst c) ConditionSettings_condition_id = Ok i ->
  segments_have (snd c) ls -> (N.of_nat (length (concat ls)) < 2 ^ 32)%N ->
  let ts := map (fun q => round_tri D (w_to_float w) (w_of_float w) (fst q)) (concat ls) in separated D (w_less w) (points_of ts) ->
  exists m, loads D w (st_files s') (dir ++ lit "/condition_id_" ++ show_index i ++ lit ".stl") m /\ merged D (w_normal w) ts m.
Proof. exact condition_files_read. Qed.
Print Assumptions C72_condition_files.
(** No call changes another file; without write_output_to_file no call changes any file. *)
Theorem C72_other_files : forall D (w : world D) of_int st files calls s rs on dir m, session w of_int st files calls s rs ->
  read D st [Sub (lit "general_settings")] TBool (lit "write_output_to_file") = Ok (VBool on) ->
  read D st [Sub (lit "general_settings")] TString (lit "output_directory_name") = Ok (VString dir) ->
  (on = true -> m <> dir ++ lit "/elements.vtk" /\ m <> dir ++ lit "/integration_points.vtk" /\ m <> dir ++ lit "/model_info.json" /\ forall i, m <> dir ++ lit "/condition_id_" ++ show_index i ++ lit ".stl") ->
  st_files s m = files m.
Proof.
  intros D w of_int st files calls s rs on dir m H Ron Rdir N. destruct (session_reads _ _ _ _ _ _ _ H) as (s0 & echo & on' & dir' & file & C & R & Rd & Ro & _ & E1 & E2 & _).
  assert (on' = on) by congruence. assert (dir' = dir) by congruence. subst on' dir'. apply (frame_run D w st echo on dir Rd Ro files s0 calls s rs C R). intros O. destruct (N O) as (N1 & N2 & N3 & N4).
  intros [-> | [-> | [-> | (i & ->)]]]; [contradiction | contradiction | contradiction | exact (N4 i eq_refl)].
Qed.
Print Assumptions C72_other_files.

(** *** An instance *)
Definition ex_element (b : bool) (n : nat) : element Q := Element b (Vec 0 0 0, Vec 1 1 1)%Q (repeat (WPoint Q (Vec 0 0 0)%Q 1%Q) n).
Definition ex_engine : engine Q := Engine Q (fun _ => Some (1%Q, true)) (fun _ => true) (fun old _ => Some (old ++ [ex_element true 3; ex_element false 8])) (fun _ => (1, 2, 3, 4)%Q)
  (fun els => inject_Z (Z.of_nat (length els))) (fun m => Some (inject_Z (Z.of_nat (length (m_triangles m))))) (fun m => negb (length (m_triangles m) =? 1)) (fun _ m => Some ([m], 1%Q)) 27.
Definition ex_text (q : Q) : text := show_index (Z.to_N (Qnum q)).
Definition ex_world : world Q := World Q (fun q => q) Qplus (fun a b => (Z.of_N a # N.succ_pos (N.pred b))%Q) (fun a b => (a / b * 100)%Q) ex_to_float ex_to_float ex_of_float ex_text ex_text ex_text
  (fun t => Missing) q_less (fun _ => Vec 0 0 1)%Q little 64 (fun _ => true) (fun _ _ _ => None) (fun n => inject_Z (Z.of_nat (S n))) ex_engine.
Definition ok_or {A} (d : A) (r : res A) : A := match r with Ok a => a | _ => d end.
Definition saved_bytes (x : saved) : bytes := match x with Saved b => b | _ => [] end.
Definition ex_condition (i : N) : dict Q :=
  DictModel.run inject_Z (new_dict (Some ConditionSettings_Values) None None) [([], SetVal (lit "condition_id") (IIndex i)); ([], SetVal (lit "input_filename") (IString (lit "a.stl")))].
Definition ex_ops (l : list (dict Q)) : list (list DictModel.step * action Q) := SettingsProps.settings_with (2, 3, 4)%N (3, 3, 3)%N gauss ++ map (fun c => ([], Append (lit "conditions_settings_list") (Some c))) l.
Definition ex_settings (l : list (dict Q)) : dict Q := DictModel.run inject_Z SettingsProps.ex_start (ex_ops l).
Definition ex_file : bytes := saved_bytes (write_stl Q ex_to_float ex_text (fun _ _ => None) little 64%N ex_mesh enc_binary).
Definition ex_files : text -> option bytes := fun n => if text_eqb n (lit "a.stl") then Some ex_file else None.
Definition ex_model (l : list (dict Q)) : state Q := ok_or (State (new_dict None None None) [] [] ex_files []) (create_model ex_world (ex_settings l) ex_files).
Definition ex_run (l : list (dict Q)) (calls : list (call Q)) : option (state Q * list (reply unit)) := run_calls ex_world (ex_settings l) calls (ex_model l).

Lemma some_eq {A} (x y : A) : Some x = Some y -> x = y.
Proof. congruence. Qed.
Lemma ex_session l calls s rs : ex_run l calls = Some (s, rs) -> check_settings (ex_settings l) = Ok tt -> (forall c, In c l -> exists i, c = ex_condition i) -> session ex_world inject_Z (ex_settings l) ex_files calls s rs.
Proof.
  intros R C Hl. exists SettingsProps.ex_start, (ex_ops l), (ex_model l). split; [exact SettingsProps.ex_created|]. split.
  { unfold ex_ops. apply Forall_app. split; [apply SettingsProps.settings_with_user|]. apply Forall_map, Forall_forall. intros c Ic. destruct (Hl c Ic) as (i & ->). split; [exact I|]. intros y E. apply some_eq in E. rewrite <- E.
    unfold ex_condition. apply (run_ok Q inject_Z); [|constructor; [split; exact I|]; constructor; [split; exact I|]; constructor]. apply (good_is Q (Some ConditionSettings_Values) None None (Ok (new_dict (Some ConditionSettings_Values) None None))); [|reflexivity]. apply good_new.
    intros ks [H | [H | H]]; [apply some_eq in H; rewrite <- H; exact wf_ConditionSettings_Values | discriminate H | discriminate H]. }
  split; [reflexivity|]. split; [|exact R]. unfold ex_model, create_model. rewrite C. cbn [bind]. rewrite created. reflexivity.
Qed.
(** Two conditions with different identifiers, everything with one call. *)
Definition ex_two : list (dict Q) := [ex_condition 1; ex_condition 2].
Definition ex_end (l : list (dict Q)) (calls : list (call Q)) : state Q * list (reply unit) := match ex_run l calls with Some x => x | None => (ex_model l, [Stop]) end.
Definition entry (s : state Q) (p : list DictModel.step) (t : ty) (n : string) : res (value Q) := read Q (st_info s) p t (lit n).
Lemma ex_accepted : check_settings (ex_settings []) = Ok tt /\ check_settings (ex_settings ex_two) = Ok tt.
Proof. split; vm_compute; reflexivity. Qed.
Definition runs (l : list (dict Q)) (calls : list (call Q)) : bool := match ex_run l calls with Some _ => true | None => false end.
Lemma ex_end_session l calls rs : runs l calls = true -> snd (ex_end l calls) = rs -> check_settings (ex_settings l) = Ok tt -> (forall c, In c l -> exists i, c = ex_condition i) ->
  session ex_world inject_Z (ex_settings l) ex_files calls (fst (ex_end l calls)) rs.
Proof.
  unfold ex_end, runs. intros R <- C H. destruct (ex_run l calls) as [[s r]|] eqn:E; [|discriminate R]. exact (ex_session l calls s r E C H).
Qed.
Lemma ex_two_conditions c : In c ex_two -> exists i, c = ex_condition i.
Proof. intros [<- | [<- | []]]; eexists; reflexivity. Qed.
Example C72_example : exists s, session ex_world inject_Z (ex_settings ex_two) ex_files [CreateAllFromSettings] s [Return tt] /\
  st_log s = [(TimeVolume, 1%Q); (TimeCondition, 2%Q); (TimeCondition, 3%Q); (TimeWrite, 4%Q)] /\
  entry s [Sub (lit "elapsed_time_info")] TDouble "total" = Ok (VDouble 10%Q) /\
  entry s [Sub (lit "quadrature_info")] TIndex "tot_num_points" = Ok (VIndex 11) /\
  map (fun c => get_index (fst c) ConditionSettings_condition_id) (st_conditions s) = [Ok 1%N; Ok 2%N] /\
  check_required (st_info s) = Ok tt /\
  loads Q ex_world ex_files (lit "a.stl") (Mesh [Vec 0 0 0; Vec 1 0 (1 # 4); Vec 0 (3 # 2) 0; Vec 5 5 5]%Q [(0, 1, 2); (2, 1, 3)] [Vec 0 0 1; Vec 0 0 1]%Q).
Proof.
  exists (fst (ex_end ex_two [CreateAllFromSettings])). split.
  { apply ex_end_session; [vm_compute; reflexivity | vm_compute; reflexivity | exact (proj2 ex_accepted) | exact ex_two_conditions]. }
  split; [vm_compute; reflexivity|]. split; [vm_compute; reflexivity|]. split; [vm_compute; reflexivity|]. split; [vm_compute; reflexivity|]. split; [vm_compute; reflexivity|].
  exists ex_file. split; vm_compute; reflexivity.
Qed.

(** Without the guards. Files that are written twice: the time of the first writing is in the total, but in none of the parts. *)
Lemma two_writes : exists s, session ex_world inject_Z (ex_settings []) ex_files [WriteModelToFile; WriteModelToFile] s [Return tt; Return tt] /\
  entry s [Sub (lit "elapsed_time_info")] TDouble "total" = Ok (VDouble 3%Q) /\
  entry s [Sub (lit "elapsed_time_info"); Sub (lit "volume_time_info")] TDouble "total" = Ok (VDouble 0%Q) /\
  entry s [Sub (lit "elapsed_time_info"); Sub (lit "conditions_time_info")] TDouble "total" = Ok (VDouble 0%Q) /\
  entry s [Sub (lit "elapsed_time_info"); Sub (lit "write_files_time_info")] TDouble "total" = Ok (VDouble 2%Q).
Proof.
  set (cl := [WriteModelToFile; WriteModelToFile]).  exists (fst (ex_end [] cl)). split.
  { apply ex_end_session; [vm_compute; reflexivity | vm_compute; reflexivity | exact (proj1 ex_accepted) | intros c []]. }
  split; [vm_compute; reflexivity|]. split; [vm_compute; reflexivity|]. split; vm_compute; reflexivity.
Qed.
Theorem C72_two_writes_refuted : exists s, session ex_world inject_Z (ex_settings []) ex_files [WriteModelToFile; WriteModelToFile] s [Return tt; Return tt] /\
  entry s [Sub (lit "elapsed_time_info")] TDouble "total" = Ok (VDouble 3%Q) /\
  entry s [Sub (lit "elapsed_time_info"); Sub (lit "volume_time_info")] TDouble "total" = Ok (VDouble 0%Q) /\
  entry s [Sub (lit "elapsed_time_info"); Sub (lit "conditions_time_info")] TDouble "total" = Ok (VDouble 0%Q) /\
  entry s [Sub (lit "elapsed_time_info"); Sub (lit "write_files_time_info")] TDouble "total" = Ok (VDouble 2%Q).
Proof. exact two_writes. Qed.
Print Assumptions C72_two_writes_refuted.
(** A condition whose call throws an exception leaves an incomplete entry in the model info, but no condition. *)
Definition ex_one : mesh (vec Q) := Mesh [Vec 0 0 0; Vec 1 0 0; Vec 0 1 0]%Q [(0, 1, 2)] [Vec 0 0 1]%Q.
Lemma exception_leaves_entry : exists s, session ex_world inject_Z (ex_settings []) ex_files [CreateVolume ex_mesh; CreateCondition ex_one (ex_condition 7)] s [Return tt; Throw] /\
  st_conditions s = [] /\ entry s [Item (lit "conditions_infos_list") 0] TIndex "condition_id" = Ok (VIndex 7) /\ check_required (st_info s) = Error.
Proof.
  set (cl := [CreateVolume ex_mesh; CreateCondition ex_one (ex_condition 7)]).  exists (fst (ex_end [] cl)). split.
  { apply ex_end_session; [vm_compute; reflexivity | vm_compute; reflexivity | exact (proj1 ex_accepted) | intros c []]. }
  split; [vm_compute; reflexivity|]. split; vm_compute; reflexivity.
Qed.
Theorem C72_exception_refuted : exists s, session ex_world inject_Z (ex_settings []) ex_files [CreateVolume ex_mesh; CreateCondition ex_one (ex_condition 7)] s [Return tt; Throw] /\
  st_conditions s = [] /\ entry s [Item (lit "conditions_infos_list") 0] TIndex "condition_id" = Ok (VIndex 7) /\ check_required (st_info s) = Error.
Proof. exact exception_leaves_entry. Qed.
Print Assumptions C72_exception_refuted.
(** Two conditions with the same identifier are accepted, but they share one file, which holds only the second one. *)
Lemma same_identifier : exists s b, session ex_world inject_Z (ex_settings []) ex_files [CreateCondition ex_mesh (ex_condition 7); CreateCondition empty_mesh (ex_condition 7); WriteModelToFile] s [Return tt; Return tt; Return tt] /\
  length (st_conditions s) = 2 /\ st_files s (lit "queso_output/condition_id_7.stl") = Some b /\ length b = 84 /\
  read_stl Q (w_of_float ex_world) (w_scan ex_world) (w_less ex_world) (w_normal ex_world) (w_host ex_world) b = Loaded empty_mesh.
Proof.
  set (cl := [CreateCondition ex_mesh (ex_condition 7); CreateCondition empty_mesh (ex_condition 7); WriteModelToFile]). 
  exists (fst (ex_end [] cl)), (match st_files (fst (ex_end [] cl)) (lit "queso_output/condition_id_7.stl") with Some b => b | None => [] end). split.
  { apply ex_end_session; [vm_compute; reflexivity | vm_compute; reflexivity | exact (proj1 ex_accepted) | intros c []]. }
  split; [vm_compute; reflexivity|]. split; [vm_compute; reflexivity|]. split; vm_compute; reflexivity.
Qed.
Theorem C72_same_identifier_refuted : exists s b, session ex_world inject_Z (ex_settings []) ex_files [CreateCondition ex_mesh (ex_condition 7); CreateCondition empty_mesh (ex_condition 7); WriteModelToFile] s [Return tt; Return tt; Return tt] /\
  length (st_conditions s) = 2 /\ st_files s (lit "queso_output/condition_id_7.stl") = Some b /\ length b = 84 /\
  read_stl Q (w_of_float ex_world) (w_scan ex_world) (w_less ex_world) (w_normal ex_world) (w_host ex_world) b = Loaded empty_mesh.
Proof. exact same_identifier. Qed.
Print Assumptions C72_same_identifier_refuted.
