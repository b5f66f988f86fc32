(** Programs with a PyQuESo object: the states that they reach. *)
From Coq Require Import String Ascii Bool NArith ZArith QArith Arith List Lia.
From Verif Require Import KeysModel SettingsKeys DictModel DictProofs SettingsModel SettingsProofs JsonModel JsonIoModel JsonIoSafe BufferModel MeshModel StlModel VtkModel SessionModel SessionProofs SessionCalls SessionHistory SessionSequence PyQuesoModel PyQuesoFiles.
Import ListNotations.
Local Open Scope nat_scope.
Notation read := DictProofs.read.

Section Programs.
Variable D : Type.
Variable w : world D.
Variable of_int : Z -> D.
Variable positive : D -> bool.
Notation dict := (dict D).
Notation py := (py D).
Notation stmt := (statement D).
Notation exec := (execute w of_int positive).
Notation do := (do_statement w of_int positive).

(** The changes of the settings in a program, in their order. *)
Definition changes (l : list stmt) : list (list DictModel.step * action D) := flat_map (fun c => match c with Change op => [op] | _ => [] end) l.
Lemma changes_app a b : changes (a ++ b) = changes a ++ changes b. Proof. apply flat_map_app. Qed.
Lemma run_app (d : dict) a b : DictModel.run of_int d (a ++ b) = DictModel.run of_int (DictModel.run of_int d a) b.
Proof. apply fold_left_app. Qed.

(** The three kinds of states. *)
Definition holding (d : dict) (files : text -> option bytes) (p : py) : Prop :=
  exists st, p = Py true (Some (Some d)) None st false false files /\ st <> Some KeepModel.
Definition lost (p : py) : Prop := exists a st files, p = Py a (Some None) None st false false files.
Definition modelled (d : dict) (s : state D) (p : py) : Prop :=
  exists a st i e files, p = Py a None (Some (d, s)) st i e files.

Lemma exec_app a : forall b p, exec (a ++ b) p = match exec a p with Some (p, ra) => match exec b p with Some (p, rb) => Some (p, ra ++ rb) | None => None end | None => None end.
Proof.
  induction a as [|c a IH]; intros b p; cbn [app execute]. - destruct (exec b p) as [[]|]; reflexivity.
  - destruct (do p c) as [p' [x| |]]; try reflexivity; rewrite IH; destruct (exec a p') as [[q ra]|]; try reflexivity; destruct (exec b q) as [[]|]; reflexivity.
Qed.

Lemma step_holding d files p c : holding d files p -> c <> Run -> c <> Delete -> holding (DictModel.run of_int d (changes [c])) files (fst (do p c)) /\ snd (do p c) <> Stop.
Proof.
  intros (st & -> & N) NR ND.
  assert (K : holding d files (Py true (Some (Some d)) None st false false files)) by (exists st; auto).
  destruct c; cbn; try contradiction; try (split; [exact K|discriminate]).
  - split; [|discriminate]. eexists. split; [reflexivity|]. destruct st as [[|]|]; congruence.
  - destruct st as [k|]; (split; [exact K|]); cbn; discriminate.
  - split; [|discriminate]. exists None. split; [reflexivity|discriminate].
  - split; [|discriminate]. exists st. auto.
Qed.
Lemma step_lost p c : lost p -> lost (fst (do p c)) /\ (c <> ReadSettings -> snd (do p c) <> Stop).
Proof.
  intros (a & st & files & ->). assert (K : lost (Py a (Some None) None st false false files)) by (exists a, st, files; reflexivity).
  destruct c; cbn; destruct a; cbn; try (split; [exact K|intros _; discriminate]); try (split; [do 3 eexists; reflexivity|intros _; discriminate]);
    (destruct st; (split; [exact K|]); intros H; [contradiction|discriminate]).
Qed.
Lemma step_modelled d s p c : modelled d s p -> exists d', modelled d' s (fst (do p c)) /\ (c <> Delete -> py_alive p = true -> py_alive (fst (do p c)) = true /\ d' = DictModel.run of_int d (changes [c])).
Proof.
  intros (a & st & i & e & files & ->).
  assert (K : modelled d s (Py a None (Some (d, s)) st i e files)) by (do 5 eexists; reflexivity).
  assert (F : forall d' (p' : py), modelled d' s p' -> (c <> Delete -> a = true -> py_alive p' = true /\ d' = DictModel.run of_int d (changes [c])) -> exists d', modelled d' s p' /\ (c <> Delete -> a = true -> py_alive p' = true /\ d' = DictModel.run of_int d (changes [c])))
    by (intros d' p' A B; exists d'; split; assumption).
  destruct c; cbn; destruct a; cbn; try (apply (F d); [exact K | intros H A; first [discriminate A | split; reflexivity]]);
    try (apply (F d); [do 5 eexists; reflexivity | intros H A; first [exfalso; apply H; reflexivity | discriminate A | split; reflexivity]]);
    try (destruct st; apply (F d); [exact K | intros H A; first [discriminate A | split; reflexivity] | exact K | intros H A; first [discriminate A | split; reflexivity]]);
    try (destruct i; apply (F d); [exact K | intros H A; first [discriminate A | split; reflexivity] | exact K | intros H A; first [discriminate A | split; reflexivity]]);
    try (destruct e; apply (F d); [exact K | intros H A; first [discriminate A | split; reflexivity] | exact K | intros H A; first [discriminate A | split; reflexivity]]).
  eapply F; [do 5 eexists; reflexivity | intros H A; split; reflexivity].
Qed.

Lemma first_run (l : list stmt) : ~ In Run l \/ exists a b, l = a ++ Run :: b /\ ~ In Run a.
Proof.
  induction l as [|c l [IH | (a & b & -> & N)]]. - left. intros [].
  - destruct c; try (left; intros [E|I]; [discriminate E|exact (IH I)]). right. exists [], l. split; [reflexivity|intros []].
  - destruct c; try (right; match goal with |- exists a' b', ?c :: _ = _ /\ _ => exists (c :: a), b end; split; [reflexivity|]; intros [E|I]; [discriminate E|exact (N I)]). right. exists [], (a ++ Run :: b). split; [reflexivity|intros []].
Qed.

Lemma exec_holding l : forall d files p, holding d files p -> ~ In Run l -> ~ In Delete l -> exists p' rs, exec l p = Some (p', rs) /\ holding (DictModel.run of_int d (changes l)) files p'.
Proof.
  induction l as [|c l IH]; intros d files p H NR ND. { exists p, []. split; [reflexivity|exact H]. }
  destruct (step_holding d files p c H) as [H' NS]. { intros ->. apply NR. left. reflexivity. } { intros ->. apply ND. left. reflexivity. }
  destruct (IH _ _ _ H') as (p' & rs & E & H''). { intros I. apply NR. right. exact I. } { intros I. apply ND. right. exact I. }
  cbn [execute]. destruct (do p c) as [q r]. cbn [fst snd] in *. exists p', (r :: rs). split.
  - destruct r; [rewrite E; reflexivity | rewrite E; reflexivity | contradiction].
  - change (c :: l) with ([c] ++ l). rewrite changes_app, run_app. exact H''.
Qed.
Lemma exec_lost l : forall p p' rs, lost p -> exec l p = Some (p', rs) -> lost p'.
Proof.
  induction l as [|c l IH]; intros p p' rs H E; cbn [execute] in E. { injection E as <- _. exact H. }
  destruct (step_lost p c H) as [H' _]. destruct (do p c) as [q [x| |]]; cbn [fst] in H'; try discriminate E; destruct (exec l q) as [[q' rs']|] eqn:E'; try discriminate E; injection E as <- _; exact (IH _ _ _ H' E').
Qed.
Lemma exec_modelled l : forall d s p p' rs, modelled d s p -> exec l p = Some (p', rs) -> exists d', modelled d' s p' /\ (~ In Delete l -> py_alive p = true -> py_alive p' = true /\ d' = DictModel.run of_int d (changes l)).
Proof.
  induction l as [|c l IH]; intros d s p p' rs H E; cbn [execute] in E. { injection E as <- _. exists d. split; [exact H|]. intros _ A. split; [exact A|reflexivity]. }
  destruct (step_modelled d s p c H) as (d1 & H1 & A1).
  assert (G : exists q r rs', do p c = (q, r) /\ exec l q = Some (p', rs')). { destruct (do p c) as [q [x| |]]; try discriminate E; destruct (exec l q) as [[q' rs']|] eqn:E'; try discriminate E; injection E as <- _; do 3 eexists; split; [reflexivity|exact E' | reflexivity | exact E']. }
  destruct G as (q & r & rs' & Eq & E'). rewrite Eq in *. cbn [fst] in *. destruct (IH _ _ _ _ _ H1 E') as (d2 & H2 & A2). exists d2. split; [exact H2|].
  intros ND Al. destruct (A1 (fun X => ND (or_introl X)) Al) as [Al1 ->]. destruct (A2 (fun X => ND (or_intror X)) Al1) as [Al2 ->]. split; [exact Al2|]. change (c :: l) with ([c] ++ l). rewrite changes_app, run_app. reflexivity.
Qed.
Lemma step_run d files p : holding d files p ->
  match check_settings d with
  | Ok _ => exists s0, create_model w d files = Ok s0 /\ modelled d (fst (create_all w d s0)) (fst (do p Run)) /\ py_alive (fst (do p Run)) = true /\
      snd (do p Run) = match snd (create_all w d s0) with Return _ => Return Nothing | Throw => Throw | Stop => Stop end
  | Error => lost (fst (do p Run)) /\ snd (do p Run) = Throw
  | _ => snd (do p Run) = Stop
  end.
Proof.
  intros (st & -> & N). cbn [do_statement run_object py_holder py_files].
  destruct (check_settings d) as [[]| | |] eqn:C; assert (M : create_model w d files = bind (check_settings d) (fun _ => bind (create_model_info (w_dbl w)) (fun x => Ok (State x [] [] files [])))) by reflexivity; rewrite C in M; cbn [bind] in M; rewrite M.
  - rewrite created. cbn [bind]. eexists. split; [reflexivity|]. match goal with |- context [create_all w d ?x] => destruct (create_all w d x) as [s r] end. cbn [fst snd].
    split; [do 5 eexists; reflexivity|]. split; reflexivity.
  - split; [do 3 eexists; reflexivity|reflexivity].
  - reflexivity.
  - reflexivity.
Qed.

(** The state after any program without Delete. *)
Lemma reach l d files p p' rs : holding d files p -> ~ In Delete l -> exec l p = Some (p', rs) ->
  (~ In Run l /\ holding (DictModel.run of_int d (changes l)) files p') \/
  exists a b, l = a ++ Run :: b /\ ~ In Run a /\
    ((check_settings (DictModel.run of_int d (changes a)) = Error /\ lost p') \/
     (check_settings (DictModel.run of_int d (changes a)) = Ok tt /\ py_alive p' = true /\
      exists s0 s, create_model w (DictModel.run of_int d (changes a)) files = Ok s0 /\ s = fst (create_all w (DictModel.run of_int d (changes a)) s0) /\
        snd (create_all w (DictModel.run of_int d (changes a)) s0) <> Stop /\ modelled (DictModel.run of_int d (changes l)) s p')).
Proof.
  intros H ND E. destruct (first_run l) as [NR | (a & b & -> & NR)].
  - left. split; [exact NR|]. destruct (exec_holding l d files p H NR ND) as (q & r & E' & H'). rewrite E in E'. injection E' as -> _. exact H'.
  - right. exists a, b. split; [reflexivity|]. split; [exact NR|]. assert (NDa : ~ In Delete a) by (intros I; apply ND, in_or_app; left; exact I). assert (NDb : ~ In Delete b) by (intros I; apply ND, in_or_app; right; right; exact I).
    destruct (exec_holding a d files p H NR NDa) as (q & r & Ea & Ha). rewrite exec_app, Ea in E. cbn [execute] in E. set (d1 := DictModel.run of_int d (changes a)) in *.
    assert (G : exists q1 r1 rs', do q Run = (q1, r1) /\ r1 <> Stop /\ exec b q1 = Some (p', rs')). { destruct (do q Run) as [q1 [x| |]]; try discriminate E; destruct (exec b q1) as [[q' rs']|] eqn:E'; try discriminate E; injection E as <- _; do 3 eexists; (split; [reflexivity|]); (split; [discriminate|exact E']). }
    destruct G as (q1 & r1 & rs' & Eq & NS & Eb). pose proof (step_run d1 files q Ha) as S. rewrite Eq in S. cbn [fst snd] in S. destruct (check_settings d1) as [[]| | |].
    + right. destruct S as (s0 & C & M & Al & R). split; [reflexivity|]. destruct (exec_modelled b _ _ _ _ _ M Eb) as (d2 & M2 & A2). destruct (A2 NDb Al) as [Al2 ->]. split; [exact Al2|]. exists s0, (fst (create_all w d1 s0)). split; [exact C|]. split; [reflexivity|].
      split. { intros X. rewrite X in R. contradiction. } rewrite changes_app, run_app. exact M2.
    + left. split; [reflexivity|]. destruct S as [L _]. exact (exec_lost b _ _ _ L Eb).
    + congruence.
    + congruence.
Qed.

(** *** References *)
(** In any program: a reference to the settings that keeps the model, to the model info, or to the elements needs a model. *)
Definition coherent (p : py) : Prop :=
  match py_holder p, py_model p with
  | Some _, None => py_info p = false /\ py_elements p = false /\ py_settings p <> Some KeepModel
  | None, Some _ => True
  | _, _ => False
  end.
Lemma coherent_step p c : coherent p -> coherent (fst (do p c)).
Proof.
  destruct p as [a h m st i e files]. unfold coherent. cbn [py_holder py_model py_info py_elements py_settings]. destruct h as [h|]; destruct m as [[d s]|]; intros C; try contradiction.
  - destruct C as (-> & -> & N). destruct c; cbn [do_statement run_object py_holder py_files get_settings py_model set_settings py_alive py_settings py_info py_elements fst]; destruct a; cbn [fst py_holder py_model py_info py_elements py_settings]; try (repeat split; try assumption; discriminate).
    + destruct h as [d|]; cbn [fst py_holder py_model py_info py_elements py_settings]; [|repeat split; assumption]. destruct (create_model w d files) as [s0| | |]; cbn [fst py_holder py_model py_info py_elements py_settings]; try (repeat split; assumption). destruct (create_all w d s0) as [s r]. exact I.
    + destruct h as [d|]; cbn [fst py_holder py_model py_info py_elements py_settings]; repeat split; try assumption. destruct st as [[|]|]; congruence.
    + destruct st; cbn [fst py_holder py_model py_info py_elements py_settings]; repeat split; assumption.
    + destruct st; cbn [fst py_holder py_model py_info py_elements py_settings]; repeat split; assumption.
    + destruct h as [d|]; cbn [fst py_holder py_model py_info py_elements py_settings]; repeat split; assumption.
  - assert (K : exists d', modelled d' s (fst (do (Py a None (Some (d, s)) st i e files) c))). { destruct (step_modelled d s (Py a None (Some (d, s)) st i e files) c) as (d' & M & _); [do 5 eexists; reflexivity|]. exists d'. exact M. }
    destruct K as (d' & a' & st' & i' & e' & f' & ->). exact I.
Qed.
Lemma coherent_exec l : forall p p' rs, coherent p -> exec l p = Some (p', rs) -> coherent p'.
Proof.
  induction l as [|c l IH]; intros p p' rs C E; cbn [execute] in E. { injection E as <- _. exact C. }
  pose proof (coherent_step p c C) as C'. destruct (do p c) as [q [x| |]]; cbn [fst] in C'; try discriminate E; destruct (exec l q) as [[q' rs']|] eqn:E'; try discriminate E; injection E as <- _; exact (IH _ _ _ C' E').
Qed.
(** A reference to the settings that keeps the model stays valid. *)
Definition keeping (p : py) : Prop := py_settings p = Some KeepModel /\ py_holder p = None /\ py_model p <> None.
Lemma keeping_step p c : keeping p -> c <> DropSettings -> keeping (fst (do p c)).
Proof.
  destruct p as [a h m st i e files]. intros (S & H & M) N. cbn in S, H, M. subst. destruct m as [[d s]|]; [|contradiction]. assert (K : keeping (Py a None (Some (d, s)) (Some KeepModel) i e files)) by (repeat split; discriminate).
  destruct c; cbn; try contradiction; destruct a; cbn; try exact K; try (repeat split; discriminate); try (destruct i; exact K); destruct e; exact K.
Qed.
Lemma keeping_exec l : forall p p' rs, keeping p -> ~ In DropSettings l -> exec l p = Some (p', rs) -> keeping p'.
Proof.
  induction l as [|c l IH]; intros p p' rs C N E; cbn [execute] in E. { injection E as <- _. exact C. }
  assert (C' : keeping (fst (do p c))). { apply keeping_step; [exact C|]. intros ->. apply N. left. reflexivity. } assert (N' : ~ In DropSettings l) by (intros I; apply N; right; exact I).
  destruct (do p c) as [q [x| |]]; cbn [fst] in C'; try discriminate E; destruct (exec l q) as [[q' rs']|] eqn:E'; try discriminate E; injection E as <- _; exact (IH _ _ _ C' N' E').
Qed.
Lemma no_reference l : forall p p' rs, py_settings p = None -> ~ In TakeSettings l -> exec l p = Some (p', rs) -> py_settings p' = None.
Proof.
  assert (K : forall p c, py_settings p = None -> c <> TakeSettings -> py_settings (fst (do p c)) = None).
  { intros [a h m st i e files] c H N. cbn in H. subst st. destruct c; cbn [do_statement]; try contradiction; try reflexivity; destruct a; try reflexivity; try (destruct i; reflexivity); try (destruct e; reflexivity); try (destruct m as [[]|]; reflexivity).
    - unfold run_object. cbn [py_holder py_files]. destruct h as [[d|]|]; try reflexivity. destruct (create_model w d files); try reflexivity. destruct (create_all w d a). reflexivity.
    - unfold get_settings, set_settings. cbn [py_holder py_model]. destruct h as [[d|]|]; try reflexivity. destruct m as [[]|]; reflexivity. }
  induction l as [|c l IH]; intros p p' rs C N E; cbn [execute] in E. { injection E as <- _. exact C. }
  assert (C' : py_settings (fst (do p c)) = None). { apply K; [exact C|]. intros ->. apply N. left. reflexivity. } assert (N' : ~ In TakeSettings l) by (intros I; apply N; right; exact I).
  destruct (do p c) as [q [x| |]]; cbn [fst] in C'; try discriminate E; destruct (exec l q) as [[q' rs']|] eqn:E'; try discriminate E; injection E as <- _; exact (IH _ _ _ C' N' E').
Qed.
End Programs.
