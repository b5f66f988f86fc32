(** Proofs about sessions: all histories of calls. *)
From Coq Require Import String Ascii Bool NArith ZArith QArith Arith List Lia.
From Coq Require DecimalN.
From Verif Require JsonIoModel JsonIoProofs.
From Verif Require Import KeysModel KeysProofs SettingsKeys DictModel DictProofs SettingsModel SettingsProofs JsonModel BufferModel MeshModel StlModel VtkModel ConditionStlProps SessionModel SessionProofs SessionCalls.
Import ListNotations.
Local Open Scope nat_scope.

Definition kind_eqb (a b : kind) : bool := match a, b with TimeVolume, TimeVolume | TimeCondition, TimeCondition | TimeWrite, TimeWrite => true | _, _ => false end.
(** The times that were measured by one kind of computation. *)
Definition times_of {D} (k : kind) (log : list (kind * D)) : list D := map snd (List.filter (fun x => kind_eqb k (fst x)) log).
Lemma times_app D k (log : list (kind * D)) x : times_of k (log ++ [x]) = times_of k log ++ (if kind_eqb k (fst x) then [snd x] else []).
Proof. unfold times_of. rewrite filter_app, map_app. cbn [List.filter]. destruct (kind_eqb k (fst x)); reflexivity. Qed.
Lemma last_snoc {A} (l : list A) x d : last (l ++ [x]) d = x.
Proof. apply last_last. Qed.

Lemma show_index_inj a b : show_index a = show_index b -> a = b.
Proof.
  unfold show_index. intros E. apply (f_equal JsonIoModel.uint_of) in E.
  rewrite !JsonIoProofs.uint_of_show in E. apply (f_equal N.of_uint) in E. rewrite !DecimalN.Unsigned.of_to in E. exact E.
Qed.

Section History.
Variable D : Type.
Variable w : world D.
Variable settings : dict D.
Variables (echo : N) (on : bool) (dir : text).
Hypothesis Rd : readable D settings echo.
(** What WriteModelToFile reads from the settings. *)
Definition outputs : Prop := exists g, general settings = Ok g /\ get_bool g GeneralSettings_write_output_to_file = Ok on /\
  get_text g GeneralSettings_output_directory_name = Ok dir /\ get_index g GeneralSettings_echo_level = Ok echo.
Hypothesis Ro : outputs.
Notation vmesh := (mesh (vec D)).
Notation en := (w_engine w).

(** *** Files *)
Lemma save_cases n wr (s : state D) : let '(s', r) := save w n wr s in
  exists files, s' = State (st_info s) (st_elements s) (st_conditions s) files (st_log s) /\ (forall m, m <> n -> files m = st_files s m) /\
    (r = Return tt -> w_can_open w n = true /\ exists b, wr (w_disk w n) = Saved b /\ files n = Some b).
Proof.
  unfold save. destruct (w_can_open w n) eqn:O.
  2:{ exists (st_files s). split; [destruct s; reflexivity|]. split; [reflexivity | discriminate]. }
  assert (Hput : forall b, let files := fun m => if text_eqb m n then Some b else st_files s m in (forall m, m <> n -> files m = st_files s m) /\ files n = Some b).
  { intros b. cbn. split.
    - intros m H. destruct (text_eqb m n) eqn:E; [apply text_eqb_eq in E; contradiction | reflexivity].
    - replace (text_eqb n n) with true by (symmetry; apply text_eqb_eq; reflexivity). reflexivity. }
  destruct (wr (w_disk w n)) as [b|b|b|] eqn:W; cbn [put_file mbind throw stop].
  - destruct (Hput b) as [A B]. eexists. split; [reflexivity|]. split; [exact A|]. intros _. split; [reflexivity|]. exists b. split; [reflexivity | exact B].
  - destruct (Hput b) as [A _]. unfold mbind, put_file, throw. eexists. split; [reflexivity|]. split; [exact A | discriminate].
  - destruct (Hput b) as [A _]. unfold mbind, put_file, stop. eexists. split; [reflexivity|]. split; [exact A | discriminate].
  - unfold stop. exists (st_files s). split; [destruct s; reflexivity|]. split; [reflexivity | discriminate].
Qed.
Definition id_of (c : dict D * list vmesh) : res N := get_index (fst c) ConditionSettings_condition_id.
Definition condition_bytes (n : text) (ms : list vmesh) : saved := write_condition (w_to_float w) (w_show6 w) (w_disk w n) (w_host w) (w_size w) ms enc_binary.
Lemma mbind_eq {A B} (m : M D A) (f : A -> M D B) s : mbind m f s = match m s with (s, Return a) => f a s | (s, Throw) => (s, Throw) | (s, Stop) => (s, Stop) end.
Proof. reflexivity. Qed.
Lemma save_conditions_cases l : forall (s : state D), let '(s', r) := save_conditions w dir l s in
  exists files, s' = State (st_info s) (st_elements s) (st_conditions s) files (st_log s) /\
    (forall m, (forall c i, In c l -> id_of c = Ok i -> m <> condition_file dir i) -> files m = st_files s m) /\
    (r = Return tt -> forall i, (exists c, In c l /\ id_of c = Ok i) -> exists pre c post b, l = pre ++ c :: post /\ id_of c = Ok i /\ (forall c', In c' post -> id_of c' <> Ok i) /\
        condition_bytes (condition_file dir i) (snd c) = Saved b /\ files (condition_file dir i) = Some b).
Proof.
  induction l as [|[cs ms] l IH]; intros s.
  { cbn. exists (st_files s). split; [destruct s; reflexivity|]. split; [reflexivity|]. intros _ i (c & [] & _). }
  cbn [save_conditions]. rewrite mbind_eq. destruct (get_index_cases D cs ConditionSettings_condition_id) as [(id & E) | [E | E]]; rewrite E; cbn [lift ret stop].
  2,3: exists (st_files s); (split; [destruct s; reflexivity|]); (split; [reflexivity | discriminate]).
  unfold ret. rewrite mbind_eq. pose proof (save_cases (condition_file dir id) (fun dk => write_condition (w_to_float w) (w_show6 w) dk (w_host w) (w_size w) ms enc_binary) s) as H.
  destruct (save w (condition_file dir id) (fun dk => write_condition (w_to_float w) (w_show6 w) dk (w_host w) (w_size w) ms enc_binary) s) as [s1 r1].
  destruct H as (files & -> & Hf & Hr). assert (Hfr : forall m, (forall c i, In c ((cs, ms) :: l) -> id_of c = Ok i -> m <> condition_file dir i) -> files m = st_files s m).
  { intros m H. apply Hf. apply (H (cs, ms) id); [left; reflexivity | exact E]. }
  destruct r1 as [[]| |]; [|exists files; split; [reflexivity | split; [exact Hfr | discriminate]]|exists files; split; [reflexivity | split; [exact Hfr | discriminate]]].
  destruct (Hr eq_refl) as (_ & b & Wb & Fb). specialize (IH (State (st_info s) (st_elements s) (st_conditions s) files (st_log s))). cbn [st_info st_elements st_conditions st_log st_files] in IH.
  destruct (save_conditions w dir l (State (st_info s) (st_elements s) (st_conditions s) files (st_log s))) as [s2 r2]. destruct IH as (files2 & -> & Hf2 & Hr2).
  exists files2. split; [reflexivity|]. split.
  - intros m H. rewrite Hf2; [apply Hfr, H|]. intros c i I. apply H. right. exact I.
  - intros R i (c & I & Ei). assert (Hd : (exists c, In c l /\ id_of c = Ok i) \/ (forall c, In c l -> id_of c <> Ok i)).
    { clear. induction l as [|c l IH]; [right; intros c []|]. destruct (id_of c) as [j| | |] eqn:Ec.
      2-4: destruct IH as [(c' & I & E') | N]; [left; exists c'; split; [right; exact I | exact E'] | right; intros c' [<- | I]; [congruence | exact (N c' I)]].
      destruct (N.eq_dec j i) as [-> | N]; [left; exists c; split; [left; reflexivity | exact Ec]|].
      destruct IH as [(c' & I & E') | N']; [left; exists c'; split; [right; exact I | exact E'] | right; intros c' [<- | I]; [congruence | exact (N' c' I)]]. }
    destruct Hd as [Hex | Hno].
    + destruct (Hr2 R i Hex) as (pre & c' & post & b' & -> & rest). exists ((cs, ms) :: pre), c', post, b'. split; [reflexivity | exact rest].
    + destruct I as [<- | I]; [|exfalso; exact (Hno c I Ei)]. assert (i = id) by (unfold id_of in Ei; cbn [fst] in Ei; congruence). subst i. exists [], (cs, ms), l, b. split; [reflexivity|]. split; [exact Ei|]. split; [exact Hno|]. split; [exact Wb|].
      rewrite Hf2; [exact Fb|]. intros c' j I' Ej Q. unfold condition_file in Q. apply app_inv_head in Q. apply app_inv_head in Q. apply app_inv_tail in Q.
      apply show_index_inj in Q. subst j. exact (Hno c' I' Ej).
Qed.

(** WriteModelToFile. *)
Definition written (d : dict D) (els : list (element D)) (conds : list (dict D * list vmesh)) (files : text -> option bytes) : Prop :=
  (exists b, write_elements_vtk D (w_bits w) (w_show15 w) (w_disk w (dir ++ lit "/elements.vtk")) (w_host w) (w_size w) (map el_box els) enc_binary = Saved b /\ files (dir ++ lit "/elements.vtk") = Some b) /\
  (exists b, write_points_vtk D (w_bits w) (w_show15 w) (w_disk w (dir ++ lit "/integration_points.vtk")) (w_host w) (w_size w) (map el_points els) enc_binary = Saved b /\ files (dir ++ lit "/integration_points.vtk") = Some b) /\
  (forall i, (exists c, In c conds /\ id_of c = Ok i) -> exists pre c post b, conds = pre ++ c :: post /\ id_of c = Ok i /\ (forall c', In c' post -> id_of c' <> Ok i) /\
     condition_bytes (condition_file dir i) (snd c) = Saved b /\ files (condition_file dir i) = Some b) /\
  (exists b, write_json w d (w_disk w (dir ++ lit "/model_info.json")) = Saved b /\ files (dir ++ lit "/model_info.json") = Some b).
Definition output_name (conds : list (dict D * list vmesh)) (m : text) : Prop :=
  m = dir ++ lit "/elements.vtk" \/ m = dir ++ lit "/integration_points.vtk" \/ m = dir ++ lit "/model_info.json" \/ exists c i, In c conds /\ id_of c = Ok i /\ m = condition_file dir i.
Definition write_facts (t : D) (f : facts D) : facts D :=
  with_times (w_add w (f_total f) t) (f_vtotal f) (f_class f) (f_inter f) (f_moment f) (f_ggq f) (f_ctotal f) t f.
Lemma name_neq a b x y : a <> b -> dir ++ lit "/" ++ a :: x <> dir ++ lit "/" ++ b :: y.
Proof. intros N E. apply app_inv_head in E. apply app_inv_head in E. congruence. Qed.
Lemma write_call f els conds files log : let '(s', r) := write_model w settings (State (dict_of f) els conds files log) in
  if on then
    exists files', (forall m, ~ output_name conds m -> files' m = files m) /\
      match r with
      | Return _ => let t := w_clock w (length log) in
          s' = State (dict_of (write_facts t f)) els conds files' (log ++ [(TimeWrite, t)]) /\ written (dict_of (write_facts t f)) els conds files'
      | _ => s' = State (dict_of f) els conds files' log \/
             (let t := w_clock w (length log) in s' = State (dict_of (write_facts t f)) els conds files' (log ++ [(TimeWrite, t)]))
      end
  else s' = State (dict_of f) els conds files log /\ r = Return tt.
Proof.
  destruct Ro as (g & G & B & T & I). unfold write_model. rewrite (mbind_return D _ _ _ _ _ (lift_ok D _ _ _ G)), (mbind_return D _ _ _ _ _ (lift_ok D _ _ _ B)).
  destruct on; [|split; reflexivity]. rewrite (mbind_return D _ _ _ _ _ (lift_ok D _ _ _ T)), (mbind_return D _ _ _ _ _ (lift_ok D _ _ _ I)).
  rewrite (mbind_return D elements _ (State (dict_of f) els conds files log) (State (dict_of f) els conds files log) els eq_refl).
  set (n1 := dir ++ lit "/elements.vtk") in *. set (n2 := dir ++ lit "/integration_points.vtk") in *. set (n3 := dir ++ lit "/model_info.json") in *.
  assert (N12 : n1 <> n2) by (apply name_neq; discriminate). assert (N13 : n1 <> n3) by (apply name_neq; discriminate). assert (N23 : n2 <> n3) by (apply name_neq; discriminate).
  assert (Nc : forall i, n1 <> condition_file dir i /\ n2 <> condition_file dir i /\ n3 <> condition_file dir i).
  { intros i. repeat split; apply (name_neq _ "c"%char _ (lit "ondition_id_" ++ show_index i ++ lit ".stl")); discriminate. }
  rewrite mbind_eq. match goal with |- context [save w n1 ?wr ?s] => pose proof (save_cases n1 wr s) as H1; destruct (save w n1 wr s) as [s1 r1] end.
  destruct H1 as (F1 & -> & Hf1 & Hr1). cbn [st_info st_elements st_conditions st_files st_log] in *.
  destruct r1 as [[]| |]; [|(exists F1; split; [intros m N; apply Hf1; intros ->; apply N; left; reflexivity | left; reflexivity])|(exists F1; split; [intros m N; apply Hf1; intros ->; apply N; left; reflexivity | left; reflexivity])].
  rewrite mbind_eq. match goal with |- context [save w n2 ?wr ?s] => pose proof (save_cases n2 wr s) as H2; destruct (save w n2 wr s) as [s2 r2] end.
  destruct H2 as (F2 & -> & Hf2 & Hr2). cbn [st_info st_elements st_conditions st_files st_log] in *.
  assert (Fr2 : forall m, m <> n1 -> m <> n2 -> F2 m = files m) by (intros m A1 A2; rewrite Hf2, Hf1 by assumption; reflexivity).
  destruct r2 as [[]| |]; [|(exists F2; split; [intros m N; apply Fr2; intros ->; apply N; [left | right; left]; reflexivity | left; reflexivity])|(exists F2; split; [intros m N; apply Fr2; intros ->; apply N; [left | right; left]; reflexivity | left; reflexivity])].
  rewrite mbind_eq. cbn [st_conditions]. match goal with |- context [save_conditions w dir conds ?s] => pose proof (save_conditions_cases conds s) as H3; destruct (save_conditions w dir conds s) as [s3 r3] end.
  destruct H3 as (F3 & -> & Hf3 & Hr3). cbn [st_info st_elements st_conditions st_files st_log] in *.
  assert (Fr3 : forall m, m <> n1 -> m <> n2 -> (forall c i, In c conds -> id_of c = Ok i -> m <> condition_file dir i) -> F3 m = files m) by (intros m A1 A2 A3; rewrite Hf3 by exact A3; apply Fr2; assumption).
  assert (Frm : forall m, ~ output_name conds m -> F3 m = files m).
  { intros m N. apply Fr3; [intros -> | intros -> | intros c i Ic Ec ->]; apply N; [left; reflexivity | right; left; reflexivity | right; right; right; exists c, i; auto]. }
  destruct r3 as [[]| |]; [|(exists F3; split; [exact Frm | left; reflexivity])|(exists F3; split; [exact Frm | left; reflexivity])].
  erewrite (mbind_return D (measure w TimeWrite)) by reflexivity. cbn [st_info st_elements st_conditions st_files st_log]. set (t := w_clock w (length log)).
  rewrite (mbind_return D _ _ _ _ _ (step_total D w _ _ _ _ _ _)), (mbind_return D _ _ _ _ _ (step_wpart D _ _ _ _ _ _)).
  match goal with |- context [State (dict_of ?x) els conds F3 _] => replace x with (write_facts t f) by (destruct f; reflexivity) end.
  erewrite (mbind_return D info) by reflexivity. cbn [st_info].
  match goal with |- context [save w n3 ?wr ?s] => pose proof (save_cases n3 wr s) as H4; destruct (save w n3 wr s) as [s4 r4] end.
  destruct H4 as (F4 & -> & Hf4 & Hr4). cbn [st_info st_elements st_conditions st_files st_log] in *.
  exists F4. split.
  { intros m N. rewrite Hf4; [apply Frm, N|]. intros ->. apply N. right. right. left. reflexivity. }
  destruct r4 as [[]| |]; [|right; reflexivity|right; reflexivity]. split; [reflexivity|].
  destruct (Hr1 eq_refl) as (_ & b1 & W1 & E1). destruct (Hr2 eq_refl) as (_ & b2 & W2 & E2). destruct (Hr4 eq_refl) as (_ & b4 & W4 & E4). specialize (Hr3 eq_refl).
  split; [|split; [|split]].
  - exists b1. split; [exact W1|]. rewrite Hf4 by exact N13. rewrite Hf3; [rewrite Hf2 by exact N12; exact E1|]. intros c i _ _. apply Nc.
  - exists b2. split; [exact W2|]. rewrite Hf4 by exact N23. rewrite Hf3; [exact E2|]. intros c i _ _. apply Nc.
  - intros i X. destruct (Hr3 i X) as (pre & c & post & b & Q1 & Q2 & Q3 & Q4 & Q5). exists pre, c, post, b. repeat split; try assumption. rewrite Hf4; [exact Q5|]. intros Q. destruct (Nc i) as (_ & _ & N). congruence.
  - exists b4. split; [exact W4 | exact E4].
Qed.

(** *** The other parts of CreateAllFromSettings *)
Lemma load_keeps n (s : state D) : fst (load w n s) = s.
Proof. unfold load. destruct (st_files s n); [|reflexivity]. destruct read_stl; reflexivity. Qed.
Lemma print_times_ok f els conds files log : print_volume_times settings (State (dict_of f) els conds files log) = (State (dict_of f) els conds files log, Return tt).
Proof.
  destruct Rd as (E & _). unfold print_volume_times. set (s := State _ _ _ _ _). rewrite (mbind_return D info _ s s (dict_of f) eq_refl), (mbind_return D _ _ _ _ _ (lift_ok D _ _ _ E)), (mbind_return D _ _ _ _ _ (lift_ok D _ _ s (sub_times D f))).
  erewrite (mbind_return D _ _ s s) by (apply lift_ok; reflexivity). erewrite (mbind_return D _ _ s s) by (apply lift_ok; apply check_volume_times).
  assert (H1 : (if (0 <? echo)%N then mbind (lift (get_double (vdict VolumeTimeInfo_Values [VDouble (f_vtotal f); VDouble (f_class f); VDouble (f_inter f); VDouble (f_moment f); VDouble (f_ggq f)]) VolumeTimeInfo_total)) (fun _ => ret tt) else ret tt) s = (s, Return tt)).
  { destruct (0 <? echo)%N; reflexivity. }
  rewrite (mbind_return D _ _ s s tt H1). destruct (1 <? echo)%N; reflexivity.
Qed.
Lemma print_condition_times_ok f els conds files log : print_condition_times settings (State (dict_of f) els conds files log) = (State (dict_of f) els conds files log, Return tt).
Proof.
  destruct Rd as (E & _). unfold print_condition_times. set (s := State _ _ _ _ _). rewrite (mbind_return D _ _ _ _ _ (lift_ok D _ _ _ E)). destruct (0 <? echo)%N; [|reflexivity].
  rewrite (mbind_return D info _ s s (dict_of f) eq_refl), (mbind_return D _ _ _ _ _ (lift_ok D _ _ s (sub_times D f))).
  erewrite (mbind_return D _ _ s s) by (apply lift_ok; reflexivity). erewrite (mbind_return D _ _ s s) by (apply lift_ok; apply check_conditions). reflexivity.
Qed.

(** *** Invariants of histories *)
Definition keeps (I : state D -> Prop) {A} (m : M D A) : Prop := forall s, I s -> snd (m s) <> Stop -> I (fst (m s)).
Lemma keeps_bind I {A B} (m : M D A) (f : A -> M D B) : keeps I m -> (forall a, keeps I (f a)) -> keeps I (mbind m f).
Proof.
  intros Hm Hf s Is. unfold keeps in *. rewrite mbind_eq. specialize (Hm s Is). destruct (m s) as [s1 [a| |]]; cbn [fst snd] in *.
  - apply Hf. apply Hm. discriminate.
  - intros _. apply Hm. discriminate.
  - congruence.
Qed.
Lemma keeps_pure I {A} (m : M D A) : (forall s, fst (m s) = s) -> keeps I m.
Proof. intros H s Is _. rewrite H. exact Is. Qed.
Lemma lift_pure {A} (r : res A) (s : state D) : fst (lift r s) = s. Proof. destruct r; reflexivity. Qed.
Lemma need_pure {A} (o : option A) (s : state D) : fst (need o s) = s. Proof. destruct o; reflexivity. Qed.

Section Invariant.
Variable I : state D -> Prop.
Hypothesis Iform : forall s, I s -> exists f, st_info s = dict_of f.
Hypothesis Ivol : forall m, keeps I (compute_volume w settings m).
Hypothesis Icond : forall m cs, keeps I (compute_condition w settings m cs).
Hypothesis Iwrite : keeps I (write_model w settings).
Lemma keeps_conditions l : keeps I (create_conditions w settings l).
Proof.
  induction l as [|[cs|] l IH]; cbn [create_conditions]; [apply keeps_pure; reflexivity| |apply keeps_pure; reflexivity].
  apply keeps_bind; [apply keeps_pure, lift_pure|]. intros file. apply keeps_bind; [apply keeps_pure, load_keeps|]. intros m. apply keeps_bind; [apply Icond|]. intros _. exact IH.
Qed.
Lemma keeps_all : keeps I (create_all w settings).
Proof.
  unfold create_all. apply keeps_bind; [apply keeps_pure, lift_pure|]. intros g. apply keeps_bind; [apply keeps_pure, lift_pure|]. intros _. apply keeps_bind; [apply keeps_pure, lift_pure|]. intros file.
  apply keeps_bind; [apply keeps_pure, load_keeps|]. intros m. apply keeps_bind; [apply Ivol|]. intros _. apply keeps_bind.
  { intros s Is _. destruct (Iform s Is) as (f & E). destruct s as [d els conds files log]. cbn [st_info] in E. subst d. rewrite print_times_ok. exact Is. }
  intros _. apply keeps_bind; [apply keeps_pure, lift_pure|]. intros l. apply keeps_bind; [|intros _; exact Iwrite].
  destruct l as [|c l]; [apply keeps_pure; reflexivity|]. apply keeps_bind; [apply keeps_conditions|]. intros _ s Is _. destruct (Iform s Is) as (f & E). destruct s as [d els conds files log]. cbn [st_info] in E. subst d. rewrite print_condition_times_ok. exact Is.
Qed.
Lemma keeps_call c : keeps I (do_call w settings c).
Proof. destruct c; cbn [do_call]; [apply Ivol | apply Icond | exact Iwrite | exact keeps_all]. Qed.
Lemma keeps_run l : forall s s' rs, I s -> run_calls w settings l s = Some (s', rs) -> I s'.
Proof.
  induction l as [|c l IH]; intros s s' rs Is R; cbn [run_calls] in R; [injection R as <- _; exact Is|].
  pose proof (keeps_call c s Is) as K. destruct (do_call w settings c s) as [s1 r]. cbn [fst snd] in K. destruct r as [[]| |]; [| |discriminate].
  - destruct (run_calls w settings l s1) as [[s2 rs2]|] eqn:R2; [|discriminate]. injection R as <- <-. apply (IH s1 s2 rs2); [apply K; discriminate | exact R2].
  - destruct (run_calls w settings l s1) as [[s2 rs2]|] eqn:R2; [|discriminate]. injection R as <- <-. apply (IH s1 s2 rs2); [apply K; discriminate | exact R2].
Qed.
End Invariant.

(** The main invariant. *)
Notation zero := (w_dbl w 0%Q).
Notation sum := (fun l => fold_left (w_add w) l zero).
Definition has_percent (c : cinfo D) : bool := match ci_percent c with Some _ => true | None => false end.
Definition counts (els : list (element D)) (f : facts D) : Prop :=
  f_active f = VIndex (N.of_nat (length els)) /\ f_trimmed f = VIndex (N.of_nat (count el_trimmed els)) /\ f_full f = VIndex (N.of_nat (length els) - N.of_nat (count el_trimmed els)) /\
  f_inactive f = VIndex (en_cells en - N.of_nat (length els)) /\ f_points f = VIndex (N.of_nat (points el_trimmed els) + N.of_nat (points (fun e => negb (el_trimmed e)) els)) /\
  f_represented f = VDouble (en_represented en els) /\ (exists x, f_percent f = VDouble x) /\ (exists x, f_per_full f = VDouble x) /\ (exists x, f_per_trimmed f = VDouble x) /\ (exists x, f_volume f = VDouble x) /\ (exists x, f_closed f = VBool x).
Definition nothing (els : list (element D)) (f : facts D) : Prop :=
  els = [] /\ f_active f = Unset /\ f_trimmed f = Unset /\ f_full f = Unset /\ f_inactive f = Unset /\ f_points f = Unset /\ f_represented f = Unset /\ f_percent f = Unset /\ f_per_full f = Unset /\ f_per_trimmed f = Unset.
Definition consistent (s : state D) (f : facts D) : Prop :=
  st_info s = dict_of f /\
  f_total f = sum (map snd (st_log s)) /\ f_ctotal f = sum (times_of TimeCondition (st_log s)) /\
  f_vtotal f = last (times_of TimeVolume (st_log s)) zero /\ f_wtotal f = last (times_of TimeWrite (st_log s)) zero /\
  Forall2 (fun c i => id_of c = Ok (ci_id i)) (st_conditions s) (List.filter has_percent (f_infos f)) /\
  (if times_of TimeVolume (st_log s) then nothing (st_elements s) f else counts (st_elements s) f).
Definition Inv (s : state D) : Prop := exists f, consistent s f.
Lemma inv_form s : Inv s -> exists f, st_info s = dict_of f. Proof. intros (f & E & _). exists f. exact E. Qed.
Lemma sum_snoc l t : fold_left (w_add w) (l ++ [t]) zero = w_add w (fold_left (w_add w) l zero) t.
Proof. rewrite fold_left_app. reflexivity. Qed.
Lemma snoc_not_nil {A B} (l : list A) x (P Q : B) : (if l ++ [x] then P else Q) = Q. Proof. destruct l; reflexivity. Qed.
Lemma inv_volume m : keeps Inv (compute_volume w settings m).
Proof.
  intros s (f & E & T1 & T2 & T3 & T4 & C & K) N. destruct s as [d els conds files log]. cbn [st_info st_log st_elements st_conditions] in *. subst d.
  pose proof (volume_call D w settings echo Rd f els conds files log m) as H. destruct (en_geometry en m) as [[v c]|]; [|contradiction]. destruct (en_prepare en m).
  - destruct (en_elements en els m) as [els'|]; [|contradiction]. cbv zeta in H. rewrite H. clear H N. cbn [fst]. set (t := w_clock w (length log)). exists (volume_facts D w m v c els' t f).
    unfold consistent. cbn [st_info st_log st_elements st_conditions]. unfold volume_facts. destruct (en_times en m) as [[[ta tb] tc] td]. cbv zeta.
    cbn [f_total f_ctotal f_vtotal f_wtotal f_infos]. rewrite !times_app, map_app. cbn [map snd fst kind_eqb]. rewrite !app_nil_r, sum_snoc, <- T1, last_snoc, snoc_not_nil.
    split; [reflexivity|]. split; [reflexivity|]. split; [exact T2|]. split; [reflexivity|]. split; [exact T4|]. split; [exact C|].
    unfold counts. cbn [f_active f_trimmed f_full f_inactive f_points f_represented f_percent f_per_full f_per_trimmed f_volume f_closed]. repeat split; try reflexivity; eexists; reflexivity.
  - rewrite H. cbn [fst]. exists (with_geometry (VBool c) (VDouble v) f). unfold consistent. cbn [st_info st_log st_elements st_conditions with_geometry f_total f_ctotal f_vtotal f_wtotal f_infos].
    split; [reflexivity|]. repeat (split; [assumption|]). destruct (times_of TimeVolume log); [exact K|]. unfold counts in *. cbn [f_active f_trimmed f_full f_inactive f_points f_represented f_percent f_per_full f_per_trimmed f_volume f_closed]. decompose [and] K. repeat split; try assumption; eexists; reflexivity.
Qed.
Lemma inv_condition m cs : keeps Inv (compute_condition w settings m cs).
Proof.
  intros s (f & E & T1 & T2 & T3 & T4 & C & K) N. destruct s as [d els conds files log]. cbn [st_info st_log st_elements st_conditions] in *. subst d.
  pose proof (condition_call D w settings echo Rd f els conds files log m cs) as H. destruct (get_index cs ConditionSettings_condition_id) as [id| | |] eqn:Eid; try contradiction.
  destruct (en_area en m) as [area|]; [|contradiction]. destruct (en_tree en m).
  - destruct (en_segments en els m) as [[segs inside]|]; [|contradiction]. cbv zeta in H. rewrite H. cbn [fst]. set (t := w_clock w (length log)). exists (condition_facts D w (CInfo id area (Some (w_percent w inside area))) t f).
    unfold consistent, condition_facts. cbn [st_info st_log st_elements st_conditions with_infos with_times f_total f_ctotal f_vtotal f_wtotal f_infos].
    rewrite !times_app, map_app. cbn [map snd fst kind_eqb]. rewrite !app_nil_r, !sum_snoc, <- T1, <- T2.
    split; [reflexivity|]. split; [reflexivity|]. split; [reflexivity|]. split; [exact T3|]. split; [exact T4|]. split; [|exact K].
    rewrite filter_app. apply Forall2_app; [exact C|]. cbn [List.filter has_percent ci_percent]. constructor; [exact Eid | constructor].
  - rewrite H. cbn [fst]. exists (with_infos (f_infos f ++ [CInfo id area None]) f). unfold consistent. cbn [st_info st_log st_elements st_conditions with_infos f_total f_ctotal f_vtotal f_wtotal f_infos].
    split; [reflexivity|]. repeat (split; [assumption|]). split; [|exact K]. rewrite filter_app. cbn [List.filter has_percent ci_percent]. rewrite app_nil_r. exact C.
Qed.
Lemma consistent_files d els conds files files' log f : consistent (State d els conds files log) f -> consistent (State d els conds files' log) f.
Proof. exact (fun H => H). Qed.
Lemma consistent_write d els conds files files' log f t : consistent (State d els conds files log) f -> consistent (State (dict_of (write_facts t f)) els conds files' (log ++ [(TimeWrite, t)])) (write_facts t f).
Proof.
  intros (E & T1 & T2 & T3 & T4 & C & K). unfold consistent in *. cbn [st_info st_log st_elements st_conditions] in *. unfold write_facts at 2 3 4 5 6. cbn [with_times f_total f_ctotal f_vtotal f_wtotal f_infos].
  rewrite !times_app, map_app. cbn [map snd fst kind_eqb]. rewrite !app_nil_r, sum_snoc, <- T1, last_snoc. repeat (split; [first [reflexivity | assumption]|]). exact K.
Qed.
Lemma inv_write : keeps Inv (write_model w settings).
Proof.
  intros s (f & Cs) N. destruct s as [d els conds files log]. assert (E := proj1 Cs). cbn [st_info] in E. subst d. pose proof (write_call f els conds files log) as H. destruct (write_model w settings (State (dict_of f) els conds files log)) as [s' r]. cbn [fst snd] in *.
  destruct on.
  - destruct H as (files' & _ & H). destruct r as [u| |]; [| |contradiction].
    + destruct H as [-> _]. exists (write_facts (w_clock w (length log)) f). eapply consistent_write. exact Cs.
    + destruct H as [-> | ->]; [exists f; exact Cs|]. exists (write_facts (w_clock w (length log)) f). eapply consistent_write. exact Cs.
  - destruct H as [-> _]. exists f. exact Cs.
Qed.
Lemma inv_start files s0 : create_model w settings files = Ok s0 -> Inv s0.
Proof.
  unfold create_model. destruct (check_settings settings); try discriminate. cbn [bind]. rewrite created. cbn [bind]. intros E. injection E as <-. exists (fresh zero).
  unfold consistent. cbn. repeat split; try reflexivity. constructor.
Qed.
Lemma inv_run files s0 l s rs : create_model w settings files = Ok s0 -> run_calls w settings l s0 = Some (s, rs) -> Inv s.
Proof. intros C R. eapply keeps_run; [exact inv_form | exact inv_volume | exact inv_condition | exact inv_write | eapply inv_start; exact C | exact R]. Qed.
End History.
