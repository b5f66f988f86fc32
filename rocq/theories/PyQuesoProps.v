(** Property C73: the class PyQuESo - its output directory, its settings, its points, and the references that it returns. *)
From Coq Require Import String Ascii Bool NArith ZArith QArith Arith List Lia.
From Verif Require Import KeysModel SettingsKeys DictModel DictProofs SettingsModel SettingsProofs JsonModel JsonIoModel JsonIoSafe BufferModel MeshModel StlModel VtkModel SessionModel SessionProofs SessionCalls SessionHistory SessionSequence PyQuesoModel PyQuesoFiles PyQuesoProofs.
From Verif Require SessionProps.
Import ListNotations.
Local Open Scope nat_scope.
Notation read := DictProofs.read.

(** The entries of the settings. *)
Definition writes {D} (d : dict D) (on : bool) : Prop := read D d [Sub (lit "general_settings")] TBool (lit "write_output_to_file") = Ok (VBool on).
Definition directory {D} (d : dict D) (dir : text) : Prop := read D d [Sub (lit "general_settings")] TString (lit "output_directory_name") = Ok (VString dir).
Definition input_file {D} (d : dict D) (file : text) : Prop := read D d [Sub (lit "general_settings")] TString (lit "input_filename") = Ok (VString file).
Definition relative (n : text) : Prop := match n with c :: _ => c <> "/"%char | [] => True end.

(** The object that the constructor returns for the settings d of a file. *)
Definition opened {D} (w : world D) of_int to_float cwd (fs : tree) (json : text) (d : dict D) (fs' : tree) (p : py D) : Prop :=
  proper fs /\ new w of_int to_float cwd fs json = (fs', Return p) /\ exists t, view fs cwd json = Some t /\ read_settings of_int (w_dbl w) to_float t = Ok d.

Lemma general_bool_read D (d : dict D) n b : general_bool d n = Ok b -> read D d [Sub (lit "general_settings")] TBool n = Ok (VBool b).
Proof.
  unfold general_bool, DictProofs.read. cbn [walk]. destruct (go d (Sub (lit "general_settings"))) as [g| | |]; cbn [bind]; try discriminate. intros H. destruct (dict_get TBool g n) as [v| | |]; cbn [bind] in H; try discriminate H.
  destruct v; cbn in H; try discriminate H. injection H as ->. reflexivity.
Qed.
Lemma general_text_read D (d : dict D) n b : general_text d n = Ok b -> read D d [Sub (lit "general_settings")] TString n = Ok (VString b).
Proof.
  unfold general_text, DictProofs.read. cbn [walk]. destruct (go d (Sub (lit "general_settings"))) as [g| | |]; cbn [bind]; try discriminate. intros H. destruct (dict_get TString g n) as [v| | |]; cbn [bind] in H; try discriminate H.
  destruct v; cbn in H; try discriminate H. injection H as ->. reflexivity.
Qed.
Lemma opened_facts D (w : world D) of_int to_float cwd fs json d fs' p : opened w of_int to_float cwd fs json d fs' p ->
  sound D d /\ settings_structure D d /\ p = new_object cwd d fs' /\ exists on dir, writes d on /\ directory d dir /\ (on = false -> fs' = fs) /\ (on = true -> clear cwd fs dir = (fs', true)).
Proof.
  intros (P & N & t & V & R). assert (S : sound D d /\ settings_structure D d). { destruct (read_settings_safe D of_int (w_dbl w) to_float t) as [(d' & R' & S & T)|R']; rewrite R in R'; [injection R' as <-; auto | discriminate R']. }
  destruct S as [S T]. split; [exact S|]. split; [exact T|]. unfold new in N. rewrite V, R in N.
  destruct (general_bool d (lit "write_output_to_file")) as [on| | |] eqn:B; try (destruct (general_text d (lit "output_directory_name")); discriminate N).
  destruct (general_text d (lit "output_directory_name")) as [dir| | |] eqn:X; try discriminate N. apply general_bool_read in B. apply general_text_read in X. destruct on.
  - destruct (clear cwd fs dir) as [f [|]] eqn:C; [|discriminate N]. injection N as <- <-. split; [reflexivity|]. exists true, dir. split; [exact B|]. split; [exact X|]. split; [discriminate|]. intros _. exact C.
  - injection N as <- <-. split; [reflexivity|]. exists false, dir. split; [exact B|]. split; [exact X|]. split; [reflexivity|discriminate].
Qed.
Lemma start_relative cwd n : relative n -> start cwd n = cwd.
Proof. destruct n as [|c n]; [reflexivity|]. cbn. intros H. destruct (Ascii.eqb_spec c "/"); [contradiction|reflexivity]. Qed.
Lemma read_one {A} (x y : res A) a b : x = Ok a -> x = Ok b -> a = b. Proof. congruence. Qed.

(** What names mean: the parts between '/' are entered one after the other, empty parts and "." stay, ".." goes up; a file is found where
    its name leads, through folders only, and a name that ends with '/' is no file. *)
Definition plain (n : text) : Prop := ~ In "/"%char n /\ n <> [] /\ n <> lit "." /\ n <> lit "..".
Lemma split_plain n : ~ In "/"%char n -> split n = [n].
Proof.
  induction n as [|c n IH]; [reflexivity|]. intros N. cbn [split]. destruct (Ascii.eqb_spec c "/") as [->|_]; [exfalso; apply N; left; reflexivity|]. rewrite IH; [reflexivity|]. intros I. apply N. right. exact I.
Qed.
Lemma components_plain n : plain n -> components n = [n].
Proof. intros (N & E & _). unfold components. rewrite (split_plain n N). cbn [List.filter]. destruct (text_eqb n []) eqn:T; [apply text_eqb_iff in T; contradiction|reflexivity]. Qed.
Lemma enter_plain p n : plain n -> enter p n = n :: p.
Proof.
  intros (_ & _ & N1 & N2). unfold enter. destruct (text_eqb n (lit ".")) eqn:T; [apply text_eqb_iff in T; contradiction|]. destruct (text_eqb n (lit "..")) eqn:T2; [apply text_eqb_iff in T2; contradiction|]. reflexivity.
Qed.
Lemma folder_iff fs cs : forall p q, folder fs p cs = Some q <-> q = fold_left enter cs p /\ forall k, fs (fold_left enter (firstn k cs) p) = Some Folder.
Proof.
  induction cs as [|c cs IH]; intros p q; cbn [folder fold_left].
  - split. + destruct (fs p) as [[|]|] eqn:F; try discriminate. intros H. injection H as <-. split; [reflexivity|]. intros k. rewrite firstn_nil. exact F. + intros [-> F]. specialize (F 0). cbn in F. rewrite F. reflexivity.
  - split. + destruct (fs p) as [[|]|] eqn:F; try discriminate. intros H. apply IH in H. destruct H as [E H]. split; [exact E|]. intros [|k]; [exact F|]. cbn [firstn fold_left]. apply H.
    + intros [E F]. pose proof (F 0) as F0. cbn in F0. rewrite F0. apply IH. split; [exact E|]. intros k. exact (F (S k)).
Qed.
Theorem C73_paths : forall (p : path) (a b n : text),
  place p (a ++ lit "/" ++ b) = place (place p a) b /\ place p [] = p /\ place p (lit ".") = p /\ place p (lit "..") = tl p /\ (plain n -> place p n = n :: p) /\
  start p (lit "/" ++ a) = [] /\ (relative a -> start p a = p) /\
  (forall fs q, folder fs p (components n) = Some q <-> q = place p n /\ forall k, fs (fold_left enter (firstn k (components n)) p) = Some Folder) /\
  (forall fs c, view fs p n = Some c -> fs (place (start p n) n) = Some (Content c)) /\ (forall fs, view fs p (n ++ lit "/") = None) /\
  (forall fs c q, plain n -> folder fs (start p (a ++ lit "/" ++ n)) (components a) = Some q -> fs (n :: q) = Some (Content c) -> view fs p (a ++ lit "/" ++ n) = Some c).
Proof.
  intros p a b n. split. { change (a ++ lit "/" ++ b) with (a ++ "/"%char :: b). unfold place. rewrite components_app. apply fold_left_app. }
  split; [reflexivity|]. split; [reflexivity|]. split; [reflexivity|]. split. { intros P. unfold place. rewrite (components_plain n P). cbn [fold_left]. apply enter_plain, P. }
  split; [reflexivity|]. split; [apply start_relative|]. split; [intros fs q; apply folder_iff|]. split; [intros fs c; apply view_place|]. split.
  - intros fs. unfold view. change (n ++ lit "/") with (n ++ "/"%char :: []). rewrite split_app, rev_app_distr. reflexivity.
  - intros fs c q P F C. unfold view. change (a ++ lit "/" ++ n) with (a ++ "/"%char :: n) in *. rewrite split_app, components_app, (split_plain n (proj1 P)), (components_plain n P), !rev_app_distr. cbn [rev app]. rewrite rev_involutive.
    destruct n as [|x n]; [destruct P as (_ & P & _); contradiction|]. rewrite F, (enter_plain q _ P), C. reflexivity.
Qed.
Print Assumptions C73_paths.

(** The output directory: it is emptied or created, nothing else is changed, and a relative name means the directory to which the files
    are written. Without output no file is touched. *)
Theorem C73_output_directory : forall D (w : world D) of_int to_float cwd fs json d fs' p, opened w of_int to_float cwd fs json d fs' p ->
  exists on dir, writes d on /\ directory d dir /\ (on = false -> fs' = fs) /\
    (on = true -> let t := place cwd dir in
      fs' t = Some Folder /\ (forall q, within t q -> q <> t -> fs' q = None) /\ (forall q, ~ within t q -> fs' q = fs q) /\
      (relative dir -> folder fs' (start cwd dir) (components dir) = Some t)).
Proof.
  intros D w of_int to_float cwd fs json d fs' p H. destruct (opened_facts _ _ _ _ _ _ _ _ _ _ H) as (_ & _ & _ & on & dir & W & X & F & T). exists on, dir. split; [exact W|]. split; [exact X|]. split; [exact F|]. intros On. cbv zeta.
  destruct (clear_ok _ _ _ _ (proj1 H) (T On)) as [A B]. split; [rewrite A, path_eqb_refl; reflexivity|]. split; [|split].
  - intros q I N. rewrite A. destruct (path_eqb q (place cwd dir)) eqn:E; [apply path_eqb_iff in E; contradiction|]. apply beneath_iff in I. rewrite I. reflexivity.
  - intros q I. exact (clear_outside _ _ _ _ _ _ (T On) I).
  - intros R. rewrite start_relative by exact R. exact B.
Qed.
Print Assumptions C73_output_directory.

(** A constructor that throws has changed nothing outside of the output directory of the settings, and nothing without output. *)
Theorem C73_failed_start : forall D (w : world D) of_int to_float cwd fs json fs' q,
  new w of_int to_float cwd fs json = (fs', Throw) -> fs' q <> fs q ->
  exists t d dir, view fs cwd json = Some t /\ read_settings of_int (w_dbl w) to_float t = Ok d /\ writes d true /\ directory d dir /\ within (place cwd dir) q.
Proof.
  intros D w of_int to_float cwd fs json fs' q N C. unfold new in N. destruct (view fs cwd json) as [t|] eqn:V; [|injection N as <-; contradiction]. destruct (read_settings of_int (w_dbl w) to_float t) as [d| | |] eqn:R; try (injection N as <-; contradiction); try discriminate N.
  destruct (general_bool d (lit "write_output_to_file")) as [on| | |] eqn:B; try (destruct (general_text d (lit "output_directory_name")); first [discriminate N | injection N as <-; contradiction]).
  destruct (general_text d (lit "output_directory_name")) as [dir| | |] eqn:X; try (first [discriminate N | injection N as <-; contradiction]). apply general_bool_read in B. apply general_text_read in X. destruct on; [|discriminate N].
  destruct (clear cwd fs dir) as [f ok] eqn:Cl. exists t, d, dir. split; [reflexivity|]. split; [exact R|]. split; [exact B|]. split; [exact X|].
  assert (f = fs') by (destruct ok; [discriminate N | injection N as <-; reflexivity]). subst f.
  destruct (beneath (place cwd dir) q) eqn:Bq; [apply beneath_iff; exact Bq|]. exfalso. apply C, (clear_outside _ _ _ _ _ _ Cl). intros I. apply beneath_iff in I. congruence.
Qed.
Print Assumptions C73_failed_start.

(** An empty name or "." means the working directory: everything in it is deleted, and then the constructor throws. *)
Lemma writes_bool D (d : dict D) on : writes d on -> general_bool d (lit "write_output_to_file") = Ok on.
Proof.
  unfold writes, general_bool, DictProofs.read. cbn [walk]. destruct (go d (Sub (lit "general_settings"))) as [g| | |]; cbn [bind]; try discriminate. intros ->. reflexivity.
Qed.
Lemma directory_text D (d : dict D) dir : directory d dir -> general_text d (lit "output_directory_name") = Ok dir.
Proof.
  unfold directory, general_text, DictProofs.read. cbn [walk]. destruct (go d (Sub (lit "general_settings"))) as [g| | |]; cbn [bind]; try discriminate. intros ->. reflexivity.
Qed.
Theorem C73_working_directory_refuted : forall D (w : world D) of_int to_float cwd fs json t d dir,
  view fs cwd json = Some t -> read_settings of_int (w_dbl w) to_float t = Ok d -> writes d true -> directory d dir -> dir = [] \/ dir = lit "." ->
  fs cwd = Some Folder ->
  exists fs', new w of_int to_float cwd fs json = (fs', Throw) /\ (forall q, within cwd q -> q <> cwd -> fs' q = None).
Proof.
  intros D w of_int to_float cwd fs json t d dir V R W X Hd F. unfold new. rewrite V, R, (writes_bool _ _ _ W), (directory_text _ _ _ X).
  assert (P : place cwd dir = cwd) by (destruct Hd; subst; reflexivity). assert (Fd : folder fs cwd (components dir) <> None) by (destruct Hd; subst; cbn; rewrite F; cbn; rewrite ?F; discriminate).
  assert (C : exists fs', clear cwd fs dir = (fs', false)). { unfold clear. rewrite components_output. destruct Hd; subst dir; cbn [folder components]; cbn; rewrite !F; cbn; rewrite ?F; eexists; reflexivity. }
  destruct C as (fs' & C). rewrite C. exists fs'. split; [reflexivity|]. intros q I N. rewrite <- P in I, N. exact (clear_deletes _ _ _ _ _ _ C Fd I N).
Qed.
Print Assumptions C73_working_directory_refuted.

(** An absolute name: the constructor clears a directory beneath the working directory, the files are written to another one, which is not
    created. *)
Theorem C73_absolute_refuted : forall D (w : world D) of_int to_float cwd fs json d fs' p dir, opened w of_int to_float cwd fs json d fs' p ->
  writes d true -> directory d dir -> ~ relative dir -> ~ within (place cwd dir) (place (start cwd dir) dir) ->
  fs' (place (start cwd dir) dir) = fs (place (start cwd dir) dir) /\ fs' (place cwd dir) = Some Folder.
Proof.
  intros D w of_int to_float cwd fs json d fs' p dir H W X R O. destruct (C73_output_directory _ _ _ _ _ _ _ _ _ _ H) as (on & dir' & W' & X' & _ & T).
  assert (on = true) by (unfold writes in *; congruence). assert (dir' = dir) by (unfold directory in *; congruence). subst. destruct (T eq_refl) as (A & _ & B & _). split; [apply B; exact O | exact A].
Qed.
Print Assumptions C73_absolute_refuted.

Lemma opened_holding D (w : world D) of_int to_float cwd fs json d fs' p : opened w of_int to_float cwd fs json d fs' p -> holding D d (view fs' cwd) p.
Proof. intros H. destruct (opened_facts _ _ _ _ _ _ _ _ _ _ H) as (_ & _ & -> & _). exists None. split; [reflexivity|discriminate]. Qed.

(** An input file in the output directory is deleted before it is read: Run throws. *)
Theorem C73_input_deleted : forall D (w : world D) of_int to_float positive cwd fs json d fs' p dir file, opened w of_int to_float cwd fs json d fs' p ->
  writes d true -> directory d dir -> input_file d file -> within (place cwd dir) (place (start cwd file) file) -> check_settings d = Ok tt ->
  view fs' cwd file = None /\ snd (do_statement w of_int positive p Run) = Throw.
Proof.
  intros D w of_int to_float positive cwd fs json d fs' p dir file H W X I O C. destruct (C73_output_directory _ _ _ _ _ _ _ _ _ _ H) as (on & dir' & W' & X' & _ & T).
  assert (on = true) by (unfold writes in *; congruence). assert (dir' = dir) by (unfold directory in *; congruence). subst. destruct (T eq_refl) as (A & B & _).
  assert (V : view fs' cwd file = None). { destruct (view fs' cwd file) as [b|] eqn:E; [|reflexivity]. apply view_place in E. destruct (list_eq_dec (list_eq_dec ascii_dec) (place (start cwd file) file) (place cwd dir)) as [Q|Q]; [rewrite Q in E; congruence | rewrite (B _ O Q) in E; discriminate E]. }
  split; [exact V|]. destruct (opened_facts _ _ _ _ _ _ _ _ _ _ H) as (S & St & _ & _). pose proof (step_run D w of_int positive d (view fs' cwd) p (opened_holding _ _ _ _ _ _ _ _ _ _ H)) as K. rewrite C in K.
  destruct K as (s0 & M & _ & _ & ->). destruct (accepted_readable D d S St C) as (echo & on & dir' & file' & _ & (g' & G' & _ & _ & E') & (g & G & Gf) & _ & _ & Rf). assert (g' = g) by congruence. subst g'. assert (file' = file) by (unfold input_file in I; congruence). subst file'.
  assert (Fl : st_files s0 = view fs' cwd). { unfold create_model in M. rewrite C, created in M. cbn [bind] in M. apply (f_equal (fun r => match r with Ok s => st_files s | _ => view fs' cwd end)) in M. cbn [st_files] in M. symmetry. exact M. }
  unfold create_all.
  rewrite (mbind_return D _ _ _ _ _ (lift_ok D _ _ _ G)), (mbind_return D _ _ _ _ _ (lift_ok D _ _ _ E')), (mbind_return D _ _ _ _ _ (lift_ok D _ _ _ Gf)), mbind_eq. unfold load. rewrite Fl, V. reflexivity.
Qed.
Print Assumptions C73_input_deleted.

(** The settings: GetSettings returns what the file contained with all changes so far, before and after Run; only a Run with settings that
    CheckSettings rejects ends this, and then GetSettings throws. *)
Theorem C73_settings : forall D (w : world D) of_int to_float positive cwd fs json d fs' p prog p' rs, opened w of_int to_float cwd fs json d fs' p ->
  ~ In Delete prog -> execute w of_int positive prog p = Some (p', rs) ->
  (snd (do_statement w of_int positive p' TakeSettings) = Return (Settings (DictModel.run of_int d (changes D prog))) /\
   forall a b, prog = a ++ Run :: b -> ~ In Run a -> check_settings (DictModel.run of_int d (changes D a)) = Ok tt) \/
  (snd (do_statement w of_int positive p' TakeSettings) = Throw /\
   exists a b, prog = a ++ Run :: b /\ ~ In Run a /\ check_settings (DictModel.run of_int d (changes D a)) = Error).
Proof.
  intros D w of_int to_float positive cwd fs json d fs' p prog p' rs H ND E. pose proof (opened_holding _ _ _ _ _ _ _ _ _ _ H) as Ho.
  assert (U : forall (a b a' b' : list (statement D)), a ++ Run :: b = a' ++ Run :: b' -> ~ In Run a -> ~ In Run a' -> a = a').
  { induction a as [|x a IH]; intros b [|y a'] b' Q N N'; [reflexivity | | | ]; cbn [app] in Q.
    - exfalso. apply N'. left. congruence. - exfalso. apply N. left. congruence.
    - assert (x = y) by congruence. subst y. f_equal. apply (IH b a' b'); [congruence | intros J; apply N; right; exact J | intros J; apply N'; right; exact J]. }
  destruct (reach D w of_int positive prog d _ p p' rs Ho ND E) as [[NR (st & -> & _)] | (a & b & -> & NR & [[C (al & st & files & ->)] | (C & Al & s0 & s & M & _ & _ & (al & st & i & e & files & ->))])].
  - left. split; [reflexivity|]. intros a b ->. exfalso. apply NR, in_or_app. right. left. reflexivity.
  - right. split; [destruct al; reflexivity|]. exists a, b. auto.
  - left. cbn [py_alive] in Al. subst al. split; [reflexivity|]. intros a' b' Q N'. rewrite <- (U _ _ _ _ Q NR N'). exact C.
Qed.
Print Assumptions C73_settings.

(** Run works once: after a Run any further Run throws and changes nothing. *)
Theorem C73_run_once : forall D (w : world D) of_int to_float positive cwd fs json d fs' p prog p' rs, opened w of_int to_float cwd fs json d fs' p ->
  In Run prog -> ~ In Delete prog -> execute w of_int positive prog p = Some (p', rs) -> do_statement w of_int positive p' Run = (p', Throw).
Proof.
  intros D w of_int to_float positive cwd fs json d fs' p prog p' rs H R ND E. pose proof (opened_holding _ _ _ _ _ _ _ _ _ _ H) as Ho.
  destruct (reach D w of_int positive prog d _ p p' rs Ho ND E) as [[NR _] | (a & b & -> & NR & [[C (al & st & files & ->)] | (C & Al & s0 & s & M & _ & _ & (al & st & i & e & files & ->))])]; [contradiction | destruct al; reflexivity | destruct al; reflexivity].
Qed.
Print Assumptions C73_run_once.

(** After a Run with rejected settings the object is useless: every method throws, whatever is done. *)
Theorem C73_rejected : forall D (w : world D) of_int to_float positive cwd fs json d fs' p a b p' rs c, opened w of_int to_float cwd fs json d fs' p ->
  ~ In Run a -> ~ In Delete (a ++ b) -> check_settings (DictModel.run of_int d (changes D a)) = Error -> execute w of_int positive (a ++ Run :: b) p = Some (p', rs) ->
  (c = Run \/ c = TakeSettings \/ c = TakeInfo \/ c = TakeElements \/ c = Points \/ exists op, c = Change op) -> do_statement w of_int positive p' c = (p', Throw).
Proof.
  intros D w of_int to_float positive cwd fs json d fs' p a b p' rs c H NR ND C E Hc. pose proof (opened_holding _ _ _ _ _ _ _ _ _ _ H) as Ho.
  assert (ND' : ~ In Delete (a ++ Run :: b)). { intros I. apply in_app_or in I. destruct I as [I|[I|I]]; [apply ND, in_or_app; left; exact I | discriminate I | apply ND, in_or_app; right; exact I]. }
  assert (L : lost D p').
  { assert (NDa : ~ In Delete a) by (intros I; apply ND, in_or_app; left; exact I). destruct (exec_holding D w of_int positive a d _ p Ho NR NDa) as (q & r & Ea & Ha). rewrite exec_app, Ea in E. cbn [execute] in E. pose proof (step_run D w of_int positive _ _ q Ha) as S. rewrite C in S. destruct S as [L S].
    destruct (do_statement w of_int positive q Run) as [q1 r1]. cbn [fst snd] in L, S. subst r1. destruct (execute w of_int positive b q1) as [[q' rs']|] eqn:Eb; [|discriminate E]. injection E as <- _. exact (exec_lost D w of_int positive b _ _ _ L Eb). }
  destruct L as (al & st & files & ->). destruct Hc as [->|[->|[->|[->|[->|(op & ->)]]]]]; destruct al; reflexivity.
Qed.
Print Assumptions C73_rejected.

(** References. As long as the object exists and GetSettings does not throw, every reference to the settings, the model info and the
    elements can be used; only Run itself can end the program. *)
Theorem C73_references : forall D (w : world D) of_int to_float positive cwd fs json d fs' p prog p' rs c, opened w of_int to_float cwd fs json d fs' p ->
  ~ In Delete prog -> execute w of_int positive prog p = Some (p', rs) -> snd (do_statement w of_int positive p' c) = Stop ->
  c = Run \/ (c = ReadSettings /\ snd (do_statement w of_int positive p' TakeSettings) = Throw).
Proof.
  intros D w of_int to_float positive cwd fs json d fs' p prog p' rs c H ND E S. pose proof (opened_holding _ _ _ _ _ _ _ _ _ _ H) as Ho.
  destruct (reach D w of_int positive prog d _ p p' rs Ho ND E) as [[NR (st & -> & _)] | (a & b & -> & NR & [[C (al & st & files & ->)] | (C & Al & s0 & s & M & _ & _ & (al & st & i & e & files & ->))])].
  - destruct c; cbn in S; try discriminate S; [left; reflexivity|]. destruct st; discriminate S.
  - destruct c; try (left; reflexivity); destruct al; cbn in S; try discriminate S; right; split; reflexivity.
  - cbn [py_alive] in Al. subst al. destruct c; try (left; reflexivity); cbn in S; try discriminate S. + destruct st; discriminate S. + destruct i; discriminate S. + destruct e; discriminate S. + destruct (gather positive (st_elements s)); discriminate S.
Qed.
Print Assumptions C73_references.

(** The model info can be used for ever, also after the object was deleted. *)
Lemma new_coherent D (w : world D) of_int to_float cwd fs json d fs' p : opened w of_int to_float cwd fs json d fs' p -> coherent D p.
Proof. intros H. destruct (opened_facts _ _ _ _ _ _ _ _ _ _ H) as (_ & _ & -> & _). cbn. repeat split. discriminate. Qed.
Theorem C73_info_reference : forall D (w : world D) of_int to_float positive cwd fs json d fs' p prog p' rs, opened w of_int to_float cwd fs json d fs' p ->
  execute w of_int positive prog p = Some (p', rs) -> snd (do_statement w of_int positive p' ReadInfo) <> Stop.
Proof.
  intros D w of_int to_float positive cwd fs json d fs' p prog p' rs H E. pose proof (coherent_exec D w of_int positive prog p p' rs (new_coherent _ _ _ _ _ _ _ _ _ _ H) E) as C.
  destruct p' as [a h m st i e files]. cbn [do_statement]. destruct i; [|discriminate]. unfold coherent in C. cbn in C. destruct h; destruct m as [[]|]; try contradiction; [destruct C as (C & _); discriminate C|]. unfold model_alive. cbn. rewrite orb_true_r. discriminate.
Qed.
Print Assumptions C73_info_reference.

(** So can the settings, if the reference was taken after the model was created and no reference was taken before. *)
Theorem C73_kept_settings : forall D (w : world D) of_int to_float positive cwd fs json d fs' p a p1 ra b p2 rb, opened w of_int to_float cwd fs json d fs' p ->
  execute w of_int positive a p = Some (p1, ra) -> ~ In TakeSettings a -> py_alive p1 = true -> snd (do_statement w of_int positive p1 TakeInfo) <> Throw ->
  execute w of_int positive (TakeSettings :: b) p1 = Some (p2, rb) -> ~ In DropSettings b -> exists d', snd (do_statement w of_int positive p2 ReadSettings) = Return (Settings d').
Proof.
  intros D w of_int to_float positive cwd fs json d fs' p a p1 ra b p2 rb H Ea N Al Ti Eb Nd. pose proof (coherent_exec D w of_int positive a p p1 ra (new_coherent _ _ _ _ _ _ _ _ _ _ H) Ea) as C.
  assert (Ns : py_settings p1 = None). { apply (no_reference D w of_int positive a p p1 ra); [destruct (opened_facts _ _ _ _ _ _ _ _ _ _ H) as (_ & _ & -> & _); reflexivity | exact N | exact Ea]. }
  destruct p1 as [al h m st i e files]. cbn in Al, Ns. subst al st. unfold coherent in C. cbn in C, Ti. destruct m as [[d1 s1]|]; [|contradiction]. destruct h; [contradiction|]. cbn [execute] in Eb. cbn in Eb.
  destruct (execute w of_int positive b (Py true None (Some (d1, s1)) (Some KeepModel) i e files)) as [[q rq]|] eqn:E; [|discriminate Eb]. injection Eb as -> _.
  assert (K : keeping D p2). { eapply keeping_exec; [|exact Nd|exact E]. repeat split; discriminate. } destruct p2 as [al h m st i' e' f']. destruct K as (K1 & K2 & K3). cbn in K1, K2, K3. subst. destruct m as [[d2 s2]|]; [|contradiction].
  exists d2. cbn. unfold settings_alive, model_alive. cbn. rewrite orb_true_r. reflexivity.
Qed.
Print Assumptions C73_kept_settings.

(** Before Run a reference to the settings can always be used, also after the object was deleted. *)
Theorem C73_settings_before_run : forall D (w : world D) of_int to_float positive cwd fs json d fs' p prog p' rs, opened w of_int to_float cwd fs json d fs' p ->
  ~ In Run prog -> execute w of_int positive prog p = Some (p', rs) -> snd (do_statement w of_int positive p' ReadSettings) <> Stop.
Proof.
  intros D w of_int to_float positive cwd fs json d fs' p prog p' rs H N E. destruct (opened_facts _ _ _ _ _ _ _ _ _ _ H) as (_ & _ & Ep & _).
  assert (K : exists a d' st, p = Py a (Some (Some d')) None st false false (view fs' cwd) /\ st <> Some KeepModel) by (rewrite Ep; do 3 eexists; split; [reflexivity|discriminate]).
  clear H Ep. revert p rs K N E. induction prog as [|c prog IH]; intros p rs (a & d' & st & -> & S) N E.
  - cbn [execute] in E. assert (Q : p' = Py a (Some (Some d')) None st false false (view fs' cwd)) by congruence. rewrite Q. cbn [do_statement]. destruct st as [[|]|]; [|contradiction|discriminate]. unfold settings_alive, holder_alive. cbn. rewrite orb_true_r. discriminate.
  - assert (Nc : c <> Run) by (intros ->; apply N; left; reflexivity). assert (N' : ~ In Run prog) by (intros I; apply N; right; exact I).
    assert (K : exists a1 d1 st1, fst (do_statement w of_int positive (Py a (Some (Some d')) None st false false (view fs' cwd)) c) = Py a1 (Some (Some d1)) None st1 false false (view fs' cwd) /\ st1 <> Some KeepModel).
    { destruct c; cbn [do_statement]; try contradiction; try (destruct a); try (do 3 eexists; split; [reflexivity|]; first [exact S | discriminate]). - cbn [get_settings py_holder fst]. do 3 eexists. split; [reflexivity|]. destruct st as [[|]|]; congruence.
      - destruct st; do 3 eexists; (split; [reflexivity|]); [exact S|discriminate]. - destruct st; do 3 eexists; (split; [reflexivity|]); [exact S|discriminate]. }
    cbn [execute] in E. destruct (do_statement w of_int positive (Py a (Some (Some d')) None st false false (view fs' cwd)) c) as [q [x| |]]; cbn [fst] in K; try discriminate E; destruct (execute w of_int positive prog q) as [[q' rs']|] eqn:E'; try discriminate E; injection E as <- _; exact (IH _ _ K N' E').
Qed.
Print Assumptions C73_settings_before_run.

(** Otherwise references dangle. 1. A reference to settings that a Run rejects. *)
Theorem C73_rejected_reference_refuted : forall D (w : world D) of_int to_float positive cwd fs json d fs' p, opened w of_int to_float cwd fs json d fs' p ->
  check_settings d = Error -> execute w of_int positive [TakeSettings; Run] p <> None /\ execute w of_int positive [TakeSettings; Run; ReadSettings] p = None.
Proof.
  intros D w of_int to_float positive cwd fs json d fs' p H C. destruct (opened_facts _ _ _ _ _ _ _ _ _ _ H) as (_ & _ & -> & _). unfold new_object. cbn [execute do_statement get_settings py_holder run_object py_files].
  assert (M : create_model w d (view fs' cwd) = Error) by (unfold create_model; rewrite C; reflexivity). rewrite M. cbn. split; [discriminate|reflexivity].
Qed.
Print Assumptions C73_rejected_reference_refuted.
(** 2. A reference to the settings that was taken before Run, if the object is deleted (also if GetSettings is called again after Run).
    3. The elements, if the object is deleted. *)
Theorem C73_deleted_refuted : forall D (w : world D) of_int to_float positive cwd fs json d fs' p s0, opened w of_int to_float cwd fs json d fs' p ->
  create_model w d (view fs' cwd) = Ok s0 -> snd (create_all w d s0) = Return tt ->
  execute w of_int positive [TakeSettings; Run; TakeSettings; Delete] p <> None /\ execute w of_int positive [TakeSettings; Run; TakeSettings; Delete; ReadSettings] p = None /\
  execute w of_int positive [Run; TakeElements; Delete] p <> None /\ execute w of_int positive [Run; TakeElements; Delete; ReadElements] p = None.
Proof.
  intros D w of_int to_float positive cwd fs json d fs' p s0 H M R. destruct (opened_facts _ _ _ _ _ _ _ _ _ _ H) as (_ & _ & -> & _). unfold new_object. cbn [execute do_statement get_settings py_holder run_object py_files].
  rewrite M. destruct (create_all w d s0) as [s r]. cbn [snd] in R. subst r. cbn. repeat split; try discriminate.
Qed.
Print Assumptions C73_deleted_refuted.

(** GetIntegrationPoints: all points of all elements in their order, if no trimmed element has a point; otherwise it throws, as points have
    no method Weight. *)
Definition has_trimmed_point {D} (e : element D) : bool := el_trimmed e && negb (length (el_points e) =? 0).
Lemma gather_spec D positive (l : list (element D)) : gather positive l = if existsb has_trimmed_point l then None else Some (flat_map el_points l).
Proof.
  induction l as [|e l IH]; [reflexivity|]. cbn [gather existsb flat_map]. rewrite IH. destruct e as [t bx ps]. cbn [el_trimmed el_points]. change (has_trimmed_point (Element t bx ps)) with (t && negb (length ps =? 0)). destruct t; cbn [andb orb].
  - destruct ps as [|x ps]; [cbn [length Nat.eqb negb trimmed_points app orb]; destruct (existsb has_trimmed_point l); reflexivity|]. cbn [trimmed_points]. change (has_attribute (lit "Weight")) with false. cbn. reflexivity.
  - destruct (existsb has_trimmed_point l); reflexivity.
Qed.
Theorem C73_points : forall D (w : world D) of_int to_float positive cwd fs json d fs' p prog p' rs els, opened w of_int to_float cwd fs json d fs' p ->
  execute w of_int positive prog p = Some (p', rs) -> snd (do_statement w of_int positive p' TakeElements) = Return (Elements els) ->
  (Forall (fun e => el_trimmed e = true -> el_points e = []) els -> snd (do_statement w of_int positive p' Points) = Return (PointList (flat_map el_points els))) /\
  ((exists e, In e els /\ el_trimmed e = true /\ el_points e <> []) -> snd (do_statement w of_int positive p' Points) = Throw).
Proof.
  intros D w of_int to_float positive cwd fs json d fs' p prog p' rs els H E T. destruct p' as [a h m st i e files]. cbn [do_statement] in *. destruct a; [|discriminate T]. destruct m as [[d1 s]|]; [|discriminate T]. cbn [snd] in *. assert (st_elements s = els) by congruence. subst els. rewrite gather_spec. split.
  - intros F. destruct (existsb has_trimmed_point (st_elements s)) eqn:X; [|reflexivity]. exfalso. apply existsb_exists in X. destruct X as (x & I & X). rewrite Forall_forall in F. specialize (F x I). unfold has_trimmed_point in X. destruct (el_trimmed x); [|discriminate X]. rewrite (F eq_refl) in X. discriminate X.
  - intros (x & I & Tx & Nx). assert (X : existsb has_trimmed_point (st_elements s) = true). { apply existsb_exists. exists x. split; [exact I|]. unfold has_trimmed_point. rewrite Tx. destruct (el_points x); [contradiction|reflexivity]. } rewrite X. reflexivity.
Qed.
Print Assumptions C73_points.
(** After a Run that returned, the elements have as many points as the model info says; so this is the number of points that
    GetIntegrationPoints returns, if it returns. *)
Theorem C73_number_of_points : forall D (w : world D) of_int to_float positive cwd fs json d fs' p prog p1 r1 p2, opened w of_int to_float cwd fs json d fs' p ->
  ~ In Delete prog -> Forall (fun c => match c with Change op => user_op D op | _ => True end) prog -> execute w of_int positive prog p = Some (p1, r1) -> do_statement w of_int positive p1 Run = (p2, Return Nothing) ->
  exists els i, snd (do_statement w of_int positive p2 TakeElements) = Return (Elements els) /\ snd (do_statement w of_int positive p2 TakeInfo) = Return (Info i) /\
    read D i [Sub (lit "quadrature_info")] TIndex (lit "tot_num_points") = Ok (VIndex (N.of_nat (length (flat_map el_points els)))) /\ check_required i = Ok tt /\
    (forall l, snd (do_statement w of_int positive p2 Points) = Return (PointList l) -> l = flat_map el_points els).
Proof.
  intros D w of_int to_float positive cwd fs json d fs' p prog p1 r1 p2 H ND U E R. pose proof (opened_holding _ _ _ _ _ _ _ _ _ _ H) as Ho.
  destruct (opened_facts _ _ _ _ _ _ _ _ _ _ H) as (S & St & _ & _).
  destruct (reach D w of_int positive prog d _ p p1 r1 Ho ND E) as [[NR Hd] | (a & b & -> & NR & [[C (al & st & files & ->)] | (C & Al & s0 & s & M & _ & _ & (al & st & i & e & files & ->))])]; [|destruct al; discriminate R | destruct al; discriminate R].
  set (d1 := DictModel.run of_int d (changes D prog)) in *.
  assert (Uc : Forall (user_op D) (changes D prog)). { apply Forall_forall. intros op I. apply in_flat_map in I. destruct I as (c & Ic & I). rewrite Forall_forall in U. specialize (U c Ic). destruct c; try contradiction. destruct I as [<-|[]]. exact U. }
  assert (S1 : sound D d1) by (apply run_ok; assumption). assert (St1 : settings_structure D d1). { unfold settings_structure, d1. rewrite !run_shape by assumption. exact St. }
  pose proof (step_run D w of_int positive d1 _ p1 Hd) as K. rewrite R in K. cbn [fst snd] in K. destruct (check_settings d1) as [[]| | |] eqn:C; [|destruct K as [_ K]; discriminate K|discriminate K|discriminate K].
  destruct K as (s0 & M & (al & st & i & e & files & ->) & Al & Rp). cbn [py_alive] in Al. subst al. destruct (accepted_readable D d1 S1 St1 C) as (echo & on & dir & file & Rd & Ro & _).
  assert (Rt : snd (create_all w d1 s0) = Return tt) by (destruct (snd (create_all w d1 s0)) as [[]| |]; [reflexivity | discriminate Rp | discriminate Rp]).
  pose proof (clean_all D w d1 echo on dir Rd Ro false s0 (clean_start D w d1 _ s0 M) tt Rt) as (f & Cs & P & V). set (s := fst (create_all w d1 s0)) in *.
  exists (st_elements s), (st_info s). split; [reflexivity|]. split; [reflexivity|]. pose proof (clean_check D w s f Cs P (V eq_refl)) as Ck. split; [|split; [exact Ck|]].
  - destruct Cs as (Ei & _ & _ & _ & _ & _ & Kc). destruct (times_of TimeVolume (st_log s)); [exfalso; apply (V eq_refl); reflexivity|]. destruct Kc as (K1 & K2 & K3 & K4 & K5 & K6 & _). destruct (read_counts D f _ _ _ _ _ _ K1 K2 K3 K4 K5 K6) as (_ & _ & _ & _ & R5 & _). rewrite Ei, R5. do 2 f_equal.
    unfold points. rewrite <- Nnat.Nat2N.inj_add, (SessionProps.points_split D el_trimmed (st_elements s) 0 0). f_equal. unfold SessionProps.all_points. cbn [plus]. clear. induction (st_elements s) as [|x l IH]; [reflexivity|]. cbn [map list_sum flat_map fold_right]. rewrite app_length, <- IH. reflexivity.
  - intros l. cbn [do_statement snd]. rewrite gather_spec. destruct (existsb has_trimmed_point (st_elements s)); [discriminate|]. congruence.
Qed.
Print Assumptions C73_number_of_points.

(** *** Examples: a working directory with a settings file, an input file and an old output file. *)
Definition py_json (file general : string) : text := lit ("{""general_settings"": {""input_filename"": """ ++ file ++ """" ++ general ++ "}, ""background_grid_settings"": {""grid_type"": ""b_spline_grid"",
  ""lower_bound_xyz"": [0.0, 0.0, 0.0], ""upper_bound_xyz"": [1.0, 1.0, 1.0], ""lower_bound_uvw"": [0.0, 0.0, 0.0], ""upper_bound_uvw"": [1.0, 1.0, 1.0],
  ""polynomial_order"": [2, 3, 4], ""number_of_elements"": [3, 3, 3]}, ""non_trimmed_quadrature_rule_settings"": {""integration_method"": ""Gauss""}}")%string.
Definition py_float (t : text) : Q := if text_eqb t (lit "1.0") then 1%Q else 0%Q.
Definition py_positive (q : Q) : bool := (0 <? Qnum q)%Z.
Definition py_cwd : path := [lit "home"].
Definition py_entries (json : text) : list (path * node) :=
  [ ([], Folder); (py_cwd, Folder); (lit "settings.json" :: py_cwd, Content json); (lit "a.stl" :: py_cwd, Content SessionProps.ex_file);
    (lit "queso_output" :: py_cwd, Folder); ([lit "old.stl"; lit "queso_output"; lit "home"], Content SessionProps.ex_file) ].
Definition py_tree (json : text) : tree := fun q => match find (fun e => path_eqb (fst e) q) (py_entries json) with Some e => Some (snd e) | None => None end.
Definition py_result (json : text) : tree * reply (py Q) := new SessionProps.ex_world inject_Z py_float py_cwd (py_tree json) (lit "settings.json").
Definition py_settings_of (json : text) : dict Q := match read_settings inject_Z (w_dbl SessionProps.ex_world) py_float json with Ok d => d | _ => new_dict None None None end.
Definition py_object (json : text) : py Q := new_object py_cwd (py_settings_of json) (fst (py_result json)).
Lemma py_proper json : proper (py_tree json).
Proof.
  intros c p. unfold py_tree at 1. destruct (find _ (py_entries json)) as [e|] eqn:F; [|contradiction]. apply find_some in F. destruct F as [I E]. apply path_eqb_iff in E. intros _.
  repeat (destruct I as [<-|I]; [cbn [fst] in E; first [discriminate E | (injection E as <- <-; reflexivity)]|]). destruct I.
Qed.
Definition is_ok {A} (r : res A) : bool := match r with Ok _ => true | _ => false end.
Definition returned {A} (r : reply A) : bool := match r with Return _ => true | _ => false end.
Lemma py_opened json : is_ok (read_settings inject_Z (w_dbl SessionProps.ex_world) py_float json) = true -> returned (snd (py_result json)) = true ->
  opened SessionProps.ex_world inject_Z py_float py_cwd (py_tree json) (lit "settings.json") (py_settings_of json) (fst (py_result json)) (py_object json).
Proof.
  intros R N. assert (V : view (py_tree json) py_cwd (lit "settings.json") = Some json) by reflexivity. assert (E : read_settings inject_Z (w_dbl SessionProps.ex_world) py_float json = Ok (py_settings_of json)).
  { unfold py_settings_of. destruct (read_settings inject_Z (w_dbl SessionProps.ex_world) py_float json); [reflexivity | discriminate R ..]. }
  split; [apply py_proper|]. split; [|exists json; split; [exact V|exact E]]. unfold py_object, py_result in *. destruct (new SessionProps.ex_world inject_Z py_float py_cwd (py_tree json) (lit "settings.json")) as [fs' r] eqn:K. cbn [fst snd] in *.
  destruct r as [p| |]; [|discriminate N|discriminate N]. f_equal. f_equal. assert (O : opened SessionProps.ex_world inject_Z py_float py_cwd (py_tree json) (lit "settings.json") (py_settings_of json) fs' p) by (split; [apply py_proper|]; split; [exact K|]; exists json; split; [exact V|exact E]).
  destruct (opened_facts _ _ _ _ _ _ _ _ _ _ O) as (_ & _ & -> & _). reflexivity.
Qed.
Definition json0 := py_json "a.stl" "".
Lemma json0_opened : opened SessionProps.ex_world inject_Z py_float py_cwd (py_tree json0) (lit "settings.json") (py_settings_of json0) (fst (py_result json0)) (py_object json0).
Proof. apply py_opened; vm_compute; reflexivity. Qed.
Definition py_run (json : text) (l : list (statement Q)) : option (list (reply (answer Q))) := match execute SessionProps.ex_world inject_Z py_positive l (py_object json) with Some (_, rs) => Some rs | None => None end.
(** What kind of reply: 0 - nothing, 1 - settings, 2 - model info, 3 - elements, 4 - points, 5 - exception. *)
Definition kind_of (r : reply (answer Q)) : nat := match r with Return Nothing => 0 | Return (Settings _) => 1 | Return (Info _) => 2 | Return (Elements _) => 3 | Return (PointList _) => 4 | Throw => 5 | Stop => 6 end.
Definition py_kinds (json : text) (l : list (statement Q)) : option (list nat) := option_map (map kind_of) (py_run json l).
Definition new_folder : list DictModel.step * action Q := ([Sub (lit "general_settings")], SetVal (lit "output_directory_name") (IString (lit "b"))).
Example C73_example : opened SessionProps.ex_world inject_Z py_float py_cwd (py_tree json0) (lit "settings.json") (py_settings_of json0) (fst (py_result json0)) (py_object json0) /\
  writes (py_settings_of json0) true /\ directory (py_settings_of json0) (lit "queso_output") /\ relative (lit "queso_output") /\ check_settings (py_settings_of json0) = Ok tt /\
  fst (py_result json0) [lit "old.stl"; lit "queso_output"; lit "home"] = None /\ fst (py_result json0) [lit "queso_output"; lit "home"] = Some Folder /\ view (fst (py_result json0)) py_cwd (lit "a.stl") = Some SessionProps.ex_file /\
  user_op Q new_folder /\
  py_kinds json0 [TakeSettings; ReadSettings; Change new_folder; Points; Run; ReadSettings; TakeInfo; TakeElements; ReadElements; Points; Run; TakeSettings] = Some [1; 1; 0; 5; 0; 1; 2; 3; 3; 5; 5; 1] /\
  py_kinds json0 [Run; TakeSettings; TakeInfo; Delete; DropInfo; ReadSettings] = Some [0; 1; 2; 0; 0; 1] /\ py_kinds json0 [TakeSettings; Delete; ReadSettings; Run] = Some [1; 0; 1; 5] /\
 
  py_kinds json0 [TakeSettings; Run; TakeInfo; Delete; ReadSettings; ReadInfo] = Some [1; 0; 2; 0; 1; 2] /\
  py_kinds json0 [TakeSettings; Run; TakeSettings; Delete] = Some [1; 0; 1; 0] /\ py_kinds json0 [TakeSettings; Run; TakeSettings; Delete; ReadSettings] = None /\
  (exists s0, create_model SessionProps.ex_world (py_settings_of json0) (view (fst (py_result json0)) py_cwd) = Ok s0 /\ snd (create_all SessionProps.ex_world (py_settings_of json0) s0) = Return tt).
Proof.
  split; [exact json0_opened|]. repeat (split; [vm_compute; first [reflexivity | discriminate | (split; exact I)]|]).
  exists (SessionProps.ok_or (State (new_dict None None None) [] [] (fun _ => None) []) (create_model SessionProps.ex_world (py_settings_of json0) (view (fst (py_result json0)) py_cwd))). split; [|vm_compute; reflexivity].
  unfold create_model. assert (C : check_settings (py_settings_of json0) = Ok tt) by (vm_compute; reflexivity). rewrite C, created. reflexivity.
Qed.
(** Settings without the values that are required: Run rejects them. *)
Definition json1 : text := lit "{""general_settings"": {""input_filename"": ""a.stl""}}".
Example C73_example_rejected : opened SessionProps.ex_world inject_Z py_float py_cwd (py_tree json1) (lit "settings.json") (py_settings_of json1) (fst (py_result json1)) (py_object json1) /\
  check_settings (py_settings_of json1) = Error /\ py_kinds json1 [TakeSettings; Run; Run; TakeSettings; TakeInfo; TakeElements; Points; DropSettings] = Some [1; 5; 5; 5; 5; 5; 5; 0] /\ py_kinds json1 [TakeSettings; Run; ReadSettings] = None.
Proof. split; [apply py_opened; vm_compute; reflexivity|]. repeat split; vm_compute; reflexivity. Qed.
(** The working directory as output directory. *)
Definition json2 := py_json "a.stl" ", ""output_directory_name"": ""."""%string.
Example C73_example_working_directory : view (py_tree json2) py_cwd (lit "settings.json") = Some json2 /\ is_ok (read_settings inject_Z (w_dbl SessionProps.ex_world) py_float json2) = true /\
  writes (py_settings_of json2) true /\ directory (py_settings_of json2) (lit ".") /\ py_tree json2 py_cwd = Some Folder /\ returned (snd (py_result json2)) = false /\ view (fst (py_result json2)) py_cwd (lit "a.stl") = None.
Proof. repeat split; vm_compute; reflexivity. Qed.
(** An absolute name. *)
Definition json3 := py_json "a.stl" ", ""output_directory_name"": ""/out"""%string.
Example C73_example_absolute : opened SessionProps.ex_world inject_Z py_float py_cwd (py_tree json3) (lit "settings.json") (py_settings_of json3) (fst (py_result json3)) (py_object json3) /\
  writes (py_settings_of json3) true /\ directory (py_settings_of json3) (lit "/out") /\ ~ relative (lit "/out") /\ ~ within (place py_cwd (lit "/out")) (place (start py_cwd (lit "/out")) (lit "/out")) /\
  fst (py_result json3) [lit "out"] = None /\ fst (py_result json3) [lit "out"; lit "home"] = Some Folder.
Proof.
  split; [apply py_opened; vm_compute; reflexivity|]. split; [vm_compute; reflexivity|]. split; [vm_compute; reflexivity|]. split; [intros H; apply H; reflexivity|]. split; [|split; vm_compute; reflexivity].
  rewrite <- beneath_iff. vm_compute. discriminate.
Qed.
(** The input file in the output directory. *)
Definition json4 := py_json "queso_output/old.stl" "".
Example C73_example_input : opened SessionProps.ex_world inject_Z py_float py_cwd (py_tree json4) (lit "settings.json") (py_settings_of json4) (fst (py_result json4)) (py_object json4) /\
  writes (py_settings_of json4) true /\ directory (py_settings_of json4) (lit "queso_output") /\ input_file (py_settings_of json4) (lit "queso_output/old.stl") /\ check_settings (py_settings_of json4) = Ok tt /\
  within (place py_cwd (lit "queso_output")) (place (start py_cwd (lit "queso_output/old.stl")) (lit "queso_output/old.stl")) /\ view (py_tree json4) py_cwd (lit "queso_output/old.stl") = Some SessionProps.ex_file.
Proof.
  split; [apply py_opened; vm_compute; reflexivity|]. repeat (split; [first [vm_compute; reflexivity | (apply beneath_iff; vm_compute; reflexivity)]|]). vm_compute. reflexivity.
Qed.
(** Elements without points in trimmed elements: GetIntegrationPoints returns all points. *)
Definition full_engine : engine Q := let e := SessionProps.ex_engine in Engine Q (en_geometry e) (en_prepare e) (fun old _ => Some (old ++ [SessionProps.ex_element false 8; SessionProps.ex_element true 0; SessionProps.ex_element false 1]))
  (en_times e) (en_represented e) (en_area e) (en_tree e) (en_segments e) (en_cells e).
Definition full_world : world Q := let w := SessionProps.ex_world in World Q (w_dbl w) (w_add w) (w_ratio w) (w_percent w) (w_bits w) (w_to_float w) (w_of_float w) (w_show w) (w_show6 w) (w_show15 w) (w_scan w) (w_less w) (w_normal w)
  (w_host w) (w_size w) (w_can_open w) (w_disk w) (w_clock w) full_engine.
Lemma full_opened : opened full_world inject_Z py_float py_cwd (py_tree json0) (lit "settings.json") (py_settings_of json0) (fst (py_result json0)) (py_object json0).
Proof.
  destruct json0_opened as (P & N & t & V & R). split; [exact P|]. split; [|exists t; split; [exact V|]].
  - change (w_dbl SessionProps.ex_world) with (w_dbl full_world) in R. unfold new in *. change (w_dbl full_world) with (w_dbl SessionProps.ex_world). exact N.
  - change (w_dbl full_world) with (w_dbl SessionProps.ex_world). exact R.
Qed.
Definition points_of (r : option (py Q * list (reply (answer Q)))) : list nat := match r with Some (_, rs) => map (fun r => match r with Return (PointList l) => length l | Return (Elements l) => length l | _ => 0 end) rs | None => [] end.
Example C73_example_points : opened full_world inject_Z py_float py_cwd (py_tree json0) (lit "settings.json") (py_settings_of json0) (fst (py_result json0)) (py_object json0) /\
  points_of (execute full_world inject_Z py_positive [Run; TakeElements; Points] (py_object json0)) = [0; 3; 9].
Proof. split; [exact full_opened | vm_compute; reflexivity]. Qed.
