(** The output directory of PyQuESo: what its constructor changes in the file system. *)
From Coq Require Import String Ascii Bool NArith ZArith QArith Arith List Lia.
From Verif Require Import KeysModel SettingsKeys DictModel SettingsModel JsonModel JsonIoModel BufferModel SessionModel PyQuesoModel.
Import ListNotations.
Local Open Scope nat_scope.

(** Specification: q is p or lies beneath p; the place that a name means, without looking at the file system. *)
Definition within (p q : path) : Prop := exists r, q = r ++ p.
Definition place (p : path) (n : text) : path := fold_left enter (components n) p.
(** The entries of a file system are in folders. *)
Definition proper (fs : tree) : Prop := forall c p, fs (c :: p) <> None -> fs p = Some Folder.

Lemma text_eqb_iff a b : text_eqb a b = true <-> a = b.
Proof. unfold text_eqb. destruct (list_eq_dec ascii_dec a b); split; congruence. Qed.
Lemma path_eqb_iff p q : path_eqb p q = true <-> p = q.
Proof. unfold path_eqb. destruct (list_eq_dec (list_eq_dec ascii_dec) p q); split; congruence. Qed.
Lemma path_eqb_refl p : path_eqb p p = true. Proof. apply path_eqb_iff. reflexivity. Qed.
Lemma beneath_iff p q : beneath p q = true <-> within p q.
Proof.
  unfold beneath, within. rewrite path_eqb_iff. split.
  - intros E. exists (firstn (length q - length p) q). rewrite <- E at 2. symmetry. apply firstn_skipn.
  - intros (r & ->). rewrite app_length, Nat.add_sub. rewrite skipn_app, skipn_all, Nat.sub_diag. reflexivity.
Qed.
Lemma within_refl p : within p p. Proof. exists []. reflexivity. Qed.

Lemma split_app a b : split (a ++ "/"%char :: b) = split a ++ split b.
Proof.
  induction a as [|c a IH]; cbn [app split]; [reflexivity|]. destruct (Ascii.eqb c "/"); [rewrite IH; reflexivity|]. rewrite IH.
  destruct (split a) as [|x r] eqn:E; [|reflexivity]. destruct a; cbn [split] in E; [discriminate E|]. destruct (Ascii.eqb a "/"); [discriminate E|]. destruct (split a0); discriminate E.
Qed.
Lemma components_app a b : components (a ++ "/"%char :: b) = components a ++ components b.
Proof. unfold components. rewrite split_app. apply filter_app. Qed.
Lemma components_output dir : components (output_folder dir) = lit "." :: components dir.
Proof.
  unfold output_folder. change (lit "./" ++ dir ++ lit "/") with (lit "." ++ "/"%char :: (dir ++ "/"%char :: [])). rewrite !components_app. change (components (lit ".")) with [lit "."]. change (components []) with (@nil text). rewrite app_nil_r. reflexivity.
Qed.

Lemma folder_place fs cs : forall p q, folder fs p cs = Some q -> q = fold_left enter cs p /\ fs q = Some Folder.
Proof.
  induction cs as [|c cs IH]; intros p q H; cbn [folder] in H; destruct (fs p) as [[|b]|] eqn:F; try discriminate H.
  - injection H as <-. auto.
  - apply IH in H. exact H.
Qed.
Lemma folder_app fs cs ds : forall p q, folder fs p cs = Some q -> folder fs p (cs ++ ds) = folder fs q ds.
Proof.
  induction cs as [|c cs IH]; intros p q H; cbn [folder app] in *; destruct (fs p) as [[|b]|] eqn:F; try discriminate H.
  - injection H as ->. reflexivity.
  - rewrite (IH _ _ H). reflexivity.
Qed.
Lemma folder_more fs fs' cs : (forall q, fs q = Some Folder -> fs' q = Some Folder) -> forall p q, folder fs p cs = Some q -> folder fs' p cs = Some q.
Proof.
  intros M. induction cs as [|c cs IH]; intros p q H; cbn [folder] in *; destruct (fs p) as [[|b]|] eqn:F; try discriminate H; rewrite (M _ F); auto.
Qed.
Lemma view_place fs cwd n b : view fs cwd n = Some b -> fs (place (start cwd n) n) = Some (Content b).
Proof.
  unfold view, place. destruct (rev (split n)) as [|[|] ?]; try discriminate; destruct (rev (components n)) as [|c r] eqn:E; try discriminate;
    (destruct (folder fs (start cwd n) (rev r)) as [p|] eqn:F; [|discriminate]; destruct (fs (enter p c)) as [[|b']|] eqn:G; try discriminate; intros H; injection H as ->;
     apply (f_equal (@rev text)) in E; rewrite rev_involutive in E; cbn [rev] in E; rewrite E, fold_left_app; cbn [fold_left]; destruct (folder_place _ _ _ _ F) as [<- _]; exact G).
Qed.

Lemma proper_within fs p q : proper fs -> fs p = None -> within p q -> fs q = None.
Proof.
  intros P N (r & ->). induction r as [|c r IH]; cbn [app]; [exact N|]. destruct (fs (c :: r ++ p)) eqn:E; [|reflexivity]. assert (F : fs (r ++ p) = Some Folder) by (apply (P c); rewrite E; discriminate). congruence.
Qed.
Lemma last_removelast (cs : list text) : cs <> [] -> cs = removelast cs ++ [last cs []].
Proof. apply app_removelast_last. Qed.

(** os.mkdir *)
Lemma mkdir_ok fs p cs fs' : cs <> [] -> mkdir fs p cs = Some fs' ->
  let t := fold_left enter cs p in fs t = None /\ (forall q, fs' q = if path_eqb q t then Some Folder else fs q) /\ folder fs' p cs = Some t.
Proof.
  intros N. unfold mkdir. destruct (text_eqb (last cs []) (lit ".") || text_eqb (last cs []) (lit "..")) eqn:E; [discriminate|].
  destruct (folder fs p (removelast cs)) as [q|] eqn:F; [|discriminate]. destruct (fs (last cs [] :: q)) eqn:G; [discriminate|]. intros H. injection H as <-. cbv zeta.
  apply orb_false_iff in E. destruct E as [E1 E2].
  assert (T : fold_left enter cs p = last cs [] :: q).
  { rewrite (last_removelast cs N) at 1. rewrite fold_left_app. cbn [fold_left]. destruct (folder_place _ _ _ _ F) as [<- _]. unfold enter. rewrite E1, E2. reflexivity. }
  rewrite T. split; [exact G|]. split; [reflexivity|]. set (fs' := fun r => if path_eqb r (last cs [] :: q) then Some Folder else fs r).
  assert (F' : folder fs' p (removelast cs) = Some q). { eapply folder_more; [|exact F]. intros r Fr. unfold fs'. destruct (path_eqb r (last cs [] :: q)); auto. }
  rewrite (last_removelast cs N) at 1. rewrite (folder_app _ _ _ _ _ F'). cbn [folder]. destruct (folder_place _ _ _ _ F') as [_ Fq]. rewrite Fq. unfold enter. rewrite E1, E2. unfold fs'. rewrite path_eqb_refl. reflexivity.
Qed.

(** Clearing the output directory. *)
Lemma clear_ok cwd fs dir fs' : proper fs -> clear cwd fs dir = (fs', true) ->
  let t := place cwd dir in (forall q, fs' q = if path_eqb q t then Some Folder else if beneath t q then None else fs q) /\ folder fs' cwd (components dir) = Some t.
Proof.
  intros P. unfold clear, place. rewrite components_output. set (cs := lit "." :: components dir). assert (N : cs <> []) by discriminate.
  assert (T : fold_left enter cs cwd = fold_left enter (components dir) cwd) by reflexivity.
  assert (W : forall fs q, folder fs cwd cs = Some q -> folder fs cwd (components dir) = Some q).
  { intros f q. unfold cs. cbn [folder]. destruct (f cwd) as [[|b]|]; try discriminate. intros H; exact H. }
  assert (Mk : forall g h, (match mkdir g cwd cs with Some f => (f, true) | None => (g, false) end) = (h, true) -> mkdir g cwd cs = Some h).
  { intros g h. destruct (mkdir g cwd cs); intros H; injection H as H; [subst; reflexivity|discriminate]. }
  destruct (folder fs cwd cs) as [p|] eqn:F.
  - destruct (folder_place _ _ _ _ F) as [Ep Fp]. unfold rmtree. destruct (text_eqb (last cs []) (lit ".") || text_eqb (last cs []) (lit "..")); [discriminate|]. intros H. apply Mk in H. destruct (mkdir_ok _ _ _ _ N H) as (A & B & C). cbv zeta. rewrite T in *. split; [|apply W; exact C].
    intros q. rewrite B. rewrite Ep. reflexivity.
  - intros H. apply Mk in H. destruct (mkdir_ok _ _ _ _ N H) as (A & B & C). cbv zeta. rewrite T in *. split; [|apply W; exact C]. intros q. rewrite B. destruct (path_eqb q (fold_left enter (components dir) cwd)); [reflexivity|].
    destruct (beneath (fold_left enter (components dir) cwd) q) eqn:Bn; [|reflexivity]. apply beneath_iff in Bn. exact (proper_within _ _ _ P A Bn).
Qed.
Lemma clear_outside cwd fs dir fs' ok q : clear cwd fs dir = (fs', ok) -> ~ within (place cwd dir) q -> fs' q = fs q.
Proof.
  intros H O. assert (Bq : beneath (place cwd dir) q = false). { destruct (beneath (place cwd dir) q) eqn:E; [|reflexivity]. apply beneath_iff in E. contradiction. }
  assert (Nq : q <> place cwd dir). { intros ->. apply O, within_refl. }
  revert H. unfold clear. rewrite components_output. set (cs := lit "." :: components dir). assert (N : cs <> []) by discriminate. assert (T : fold_left enter cs cwd = place cwd dir) by reflexivity.
  assert (Mk : forall g h b, (match mkdir g cwd cs with Some f => (f, true) | None => (g, false) end) = (h, b) -> h q = g q).
  { intros g h b. destruct (mkdir g cwd cs) as [f|] eqn:M; intros H; injection H as <- _; [|reflexivity]. destruct (mkdir_ok _ _ _ _ N M) as (_ & B & _). rewrite B, T. destruct (path_eqb q (place cwd dir)) eqn:E; [apply path_eqb_iff in E; contradiction|reflexivity]. }
  destruct (folder fs cwd cs) as [p|] eqn:F; [|intros H; exact (Mk _ _ _ H)]. destruct (folder_place _ _ _ _ F) as [Ep _]. rewrite T in Ep. subst p. unfold rmtree.
  destruct (text_eqb (last cs []) (lit ".") || text_eqb (last cs []) (lit "..")); intros H; [injection H as <- _; rewrite Bq; reflexivity|]. apply Mk in H. rewrite H, Bq. reflexivity.
Qed.
Lemma clear_deletes cwd fs dir fs' ok q : clear cwd fs dir = (fs', ok) -> folder fs cwd (components dir) <> None -> within (place cwd dir) q -> q <> place cwd dir -> fs' q = None.
Proof.
  intros H Ex I Nq. apply beneath_iff in I. assert (Eq : path_eqb q (place cwd dir) = false). { destruct (path_eqb q (place cwd dir)) eqn:E; [apply path_eqb_iff in E; contradiction|reflexivity]. }
  revert H. unfold clear. rewrite components_output. set (cs := lit "." :: components dir). assert (N : cs <> []) by discriminate. assert (T : fold_left enter cs cwd = place cwd dir) by reflexivity.
  assert (Mk : forall g h b, (match mkdir g cwd cs with Some f => (f, true) | None => (g, false) end) = (h, b) -> h q = g q).
  { intros g h b. destruct (mkdir g cwd cs) as [f|] eqn:M; intros H; injection H as <- _; [|reflexivity]. destruct (mkdir_ok _ _ _ _ N M) as (_ & B & _). rewrite B, T, Eq. reflexivity. }
  destruct (folder fs cwd cs) as [p|] eqn:F.
  - destruct (folder_place _ _ _ _ F) as [Ep _]. rewrite T in Ep. subst p. unfold rmtree.
    destruct (text_eqb (last cs []) (lit ".") || text_eqb (last cs []) (lit "..")); intros H; [injection H as <- _; rewrite I, Eq; reflexivity|]. apply Mk in H. rewrite H, I. reflexivity.
  - exfalso. apply Ex. unfold cs in F. cbn [folder] in F. destruct (folder fs cwd (components dir)) eqn:G; [|reflexivity]. assert (Fc : fs cwd = Some Folder). { destruct (components dir); cbn [folder] in G; destruct (fs cwd) as [[|]|]; [reflexivity | discriminate G | discriminate G | reflexivity | discriminate G | discriminate G]. }
    rewrite Fc in F. change (enter cwd (lit ".")) with cwd in F. congruence.
Qed.
