(** Lemmas about programs with meshes: what statements keep, and invariants of all states that programs reach. *)
From Coq Require Import Arith Lia List Bool.
From Verif Require Import MeshModel MeshProofs PyMeshModel.
Import ListNotations.

Section PyMesh.
Context {V : Type}.
Variable normal : tri V -> V.
Variables grow room : nat -> nat.
Notation do_statement := (do_statement normal grow room).
Notation execute := (execute normal grow room).

Lemma nth_put {A} (l : list A) : forall k a i, nth_error (put l k a) i = if (i =? k) && (k <? length l) then Some a else nth_error l i.
Proof.
  induction l as [|x l IH]; intros k a i. - cbn. rewrite andb_false_r. reflexivity.
  - destruct k as [|k], i as [|i]; try reflexivity. cbn [put nth_error length]. rewrite IH. reflexivity.
Qed.
Lemma put_length {A} (l : list A) : forall k a, length (put l k a) = length l.
Proof. induction l as [|x l IH]; intros [|k] a; cbn; try reflexivity. rewrite IH. reflexivity. Qed.
Lemma push_items {A} (v : vec A) x : v_items (push grow v x) = v_items v ++ [x]. Proof. unfold push. destruct (_ <=? _); reflexivity. Qed.
Lemma reserve_items {A} (v : vec A) n : v_items (reserve room v n) = v_items v. Proof. unfold reserve. destruct (_ <=? _); reflexivity. Qed.

Lemma execute_app a : forall b s, execute (a ++ b) s = match execute a s with Some (s1, r1) => match execute b s1 with Some (s2, r2) => Some (s2, r1 ++ r2) | None => None end | None => None end.
Proof.
  induction a as [|c a IH]; intros b s; cbn [app PyMeshModel.execute]. { destruct (execute b s) as [[s2 r2]|]; reflexivity. }
  destruct (do_statement s c) as [s1 r]. destruct r; try reflexivity; rewrite IH; destruct (execute a s1) as [[s2 r2]|]; try reflexivity; destruct (execute b s2) as [[s3 r3]|]; reflexivity.
Qed.
Lemma execute_length l : forall s s' rs, execute l s = Some (s', rs) -> length rs = length l.
Proof.
  induction l as [|c l IH]; intros s s' rs E; cbn [PyMeshModel.execute] in E. { injection E as _ <-. reflexivity. }
  destruct (do_statement s c) as [s1 r] eqn:S. destruct r; try discriminate E; (destruct (execute l s1) as [[s2 r2]|] eqn:E1; [|discriminate E]); injection E as _ <-; cbn [length]; rewrite (IH _ _ _ E1); reflexivity.
Qed.
Lemma execute_cons c l s s' rs : execute (c :: l) s = Some (s', rs) <-> exists s1 r rs', do_statement s c = (s1, r) /\ r <> Undefined /\ execute l s1 = Some (s', rs') /\ rs = r :: rs'.
Proof.
  cbn [PyMeshModel.execute]. split.
  - destruct (do_statement s c) as [s1 r] eqn:S. intros E. exists s1, r. destruct r; try discriminate E; (destruct (execute l s1) as [[s2 r2]|] eqn:E1; [|discriminate E]); injection E as <- <-; exists r2; (split; [reflexivity|split; [discriminate|split; [reflexivity|reflexivity]]]).
  - intros (s1 & r & rs' & -> & N & E & ->). destruct r; try contradiction; rewrite E; reflexivity.
Qed.
(** A property of two states that every statement keeps is kept by programs. *)
Lemma execute_keeps (R : pm V -> pm V -> Prop) l : (forall s, R s s) -> (forall s1 s2 s3, R s1 s2 -> R s2 s3 -> R s1 s3) ->
  (forall s c, In c l -> R s (fst (do_statement s c))) -> forall s s' rs, execute l s = Some (s', rs) -> R s s'.
Proof.
  intros H1 H2. induction l as [|c l IH]; intros H3 s s' rs E. { injection E as <- _. apply H1. }
  apply execute_cons in E. destruct E as (s1 & r & rs' & S & _ & E & _). apply (H2 _ s1). { pose proof (H3 s c (or_introl eq_refl)) as K. rewrite S in K. exact K. } apply (IH (fun s c I => H3 s c (or_intror I)) _ _ _ E).
Qed.

(** A statement adds items at the ends; a block is left only when it gets too small. *)
Definition longer {A} (u v : vec A) : Prop := (exists e, v_items v = v_items u ++ e) /\ v_cap u <= v_cap v /\ (v_block v = v_block u \/ v_block u < v_block v).
Definition further (s s' : pm V) : Prop := longer (pm_vertices s) (pm_vertices s') /\ longer (pm_triangles s) (pm_triangles s') /\ longer (pm_normals s) (pm_normals s') /\ exists e, pm_taken s' = pm_taken s ++ e.
Lemma longer_refl {A} (u : vec A) : longer u u. Proof. split; [exists []; symmetry; apply app_nil_r|]. split; [lia|]. left. reflexivity. Qed.
Lemma longer_trans {A} (u v t : vec A) : longer u v -> longer v t -> longer u t.
Proof. intros ([e E] & C & B) ([e' E'] & C' & B'). split; [exists (e ++ e'); rewrite E', E; symmetry; apply app_assoc|]. split; lia. Qed.
Lemma push_longer {A} (v : vec A) x : longer v (push grow v x).
Proof. unfold push. destruct (_ <=? _) eqn:L; (split; [exists [x]; reflexivity|]); cbn; [split; [lia|left; reflexivity]|apply Nat.leb_gt in L; split; lia]. Qed.
Lemma reserve_longer {A} (v : vec A) n : longer v (reserve room v n).
Proof. unfold reserve. destruct (_ <=? _) eqn:L; [apply longer_refl|]. apply Nat.leb_gt in L. split; [exists []; symmetry; apply app_nil_r|]. cbn. split; lia. Qed.
Lemma further_refl s : further s s. Proof. split; [apply longer_refl|]. split; [apply longer_refl|]. split; [apply longer_refl|]. exists []. symmetry. apply app_nil_r. Qed.
Lemma further_trans s1 s2 s3 : further s1 s2 -> further s2 s3 -> further s1 s3.
Proof. intros (A1 & A2 & A3 & e & E) (B1 & B2 & B3 & e' & E'). split; [eapply longer_trans; eassumption|]. split; [eapply longer_trans; eassumption|]. split; [eapply longer_trans; eassumption|]. exists (e ++ e'). rewrite E', E. symmetry. apply app_assoc. Qed.
Lemma do_further s c : further s (fst (do_statement s c)).
Proof.
  assert (K : forall n vs ts ns its tk its' e, further (Pm n vs ts ns its tk) (Pm n vs ts ns its' (tk ++ e))) by (intros; split; [apply longer_refl|]; split; [apply longer_refl|]; split; [apply longer_refl|]; exists e; reflexivity).
  assert (K0 : forall n vs ts ns its tk its', further (Pm n vs ts ns its tk) (Pm n vs ts ns its' tk)) by (intros; split; [apply longer_refl|]; split; [apply longer_refl|]; split; [apply longer_refl|]; exists []; symmetry; apply app_nil_r).
  destruct s as [named vs ts ns its taken]. destruct c; cbn [PyMeshModel.do_statement]; try apply further_refl; try apply K0.
  - destruct named; [|apply further_refl]. split; [apply push_longer|]. split; [apply longer_refl|]. split; [apply longer_refl|]. exists []. symmetry. apply app_nil_r.
  - destruct named; [|apply further_refl]. destruct (corners (v_items vs) t); [|apply further_refl]. split; [apply longer_refl|]. split; [apply push_longer|]. split; [apply push_longer|]. exists []. symmetry. apply app_nil_r.
  - destruct named; [|apply further_refl]. split; [apply reserve_longer|]. split; [apply reserve_longer|]. split; [apply reserve_longer|]. exists []. symmetry. apply app_nil_r.
  - destruct named; [|apply further_refl]. apply K0.
  - destruct named; [|apply further_refl]. apply K0.
  - destruct (nth_error its k) as [[c|]|]; try apply further_refl. unfold next. destruct (c_triangles c); (destruct (_ <=? _); [apply further_refl|]).
    + destruct (nth_error (v_items ts) (c_index c)); [|apply further_refl]. destruct (triangle_n _ _); [|apply further_refl]. apply K.
    + destruct (nth_error (v_items vs) (c_index c)); [|apply further_refl]. apply K0.
  - split; [apply longer_refl|]. split; [apply longer_refl|]. split; [apply longer_refl|]. exists []. symmetry. apply app_nil_r.
Qed.
Lemma execute_further l s s' rs : execute l s = Some (s', rs) -> further s s'.
Proof. intros E. revert E. apply execute_keeps; [apply further_refl|apply further_trans|intros; apply do_further]. Qed.

(** The invariant. *)
Definition good_triangle (vs : list V) (t : itri) (n : V) : Prop := exists p, corners vs t = Some p /\ n = normal p.
Definition good_proxy (s : pm V) (x : proxy) : Prop :=
  nth_error (v_items (pm_triangles s)) (x_normal x) = Some (x_corners x) /\ x_block x <= v_block (pm_vertices s) /\ x_nblock x <= v_block (pm_normals s).
Definition ok (s : pm V) : Prop :=
  Forall2 (good_triangle (v_items (pm_vertices s))) (v_items (pm_triangles s)) (v_items (pm_normals s)) /\ Forall (good_proxy s) (pm_taken s) /\
  length (v_items (pm_vertices s)) <= v_cap (pm_vertices s) /\ length (v_items (pm_normals s)) <= v_cap (pm_normals s).
Lemma corners_app (vs e : list V) t p : corners vs t = Some p -> corners (vs ++ e) t = Some p.
Proof.
  destruct t as [[i j] k]. cbn. destruct (nth_error vs i) eqn:A; [|discriminate]. destruct (nth_error vs j) eqn:B; [|discriminate]. destruct (nth_error vs k) eqn:C; [|discriminate]. intros H.
  rewrite !nth_error_app1 by (apply nth_error_Some; congruence). rewrite A, B, C. exact H.
Qed.
Lemma good_app vs e t n : good_triangle vs t n -> good_triangle (vs ++ e) t n. Proof. intros (p & C & N). exists p. split; [apply corners_app, C|exact N]. Qed.
Lemma proxy_further s s' x : further s s' -> good_proxy s x -> good_proxy s' x.
Proof.
  intros ((_ & _ & Bv) & ([e Et] & _) & (_ & _ & Bn) & _) (A & B & C). split. { rewrite Et, nth_error_app1; [exact A|]. apply nth_error_Some. congruence. } split; lia.
Qed.
Lemma nth_F2 {A B} (R : A -> B -> Prop) l m : Forall2 R l m -> forall i a, nth_error l i = Some a -> exists b, nth_error m i = Some b /\ R a b.
Proof. induction 1 as [|x y l m H _ IH]; intros [|i] a E; try discriminate E; cbn in *. - injection E as <-. exists y. split; [reflexivity|exact H]. - apply IH, E. Qed.
Lemma F2_length {A B} (R : A -> B -> Prop) l m : Forall2 R l m -> length l = length m. Proof. induction 1; cbn; congruence. Qed.
Lemma push_cap {A} (v : vec A) x : length (v_items (push grow v x)) <= v_cap (push grow v x).
Proof. unfold push. destruct (_ <=? _) eqn:L; cbn [v_items v_cap]; rewrite app_length; cbn [length]; [apply Nat.leb_le in L; lia|lia]. Qed.
Lemma reserve_cap {A} (v : vec A) n : length (v_items v) <= v_cap v -> length (v_items (reserve room v n)) <= v_cap (reserve room v n) /\ n <= v_cap (reserve room v n).
Proof. unfold reserve. destruct (_ <=? _) eqn:L; cbn [v_items v_cap]; [apply Nat.leb_le in L; lia|apply Nat.leb_gt in L; lia]. Qed.
Lemma do_ok s c : ok s -> ok (fst (do_statement s c)).
Proof.
  intros (T & X & Cv & Cn). pose proof (do_further s c) as F. assert (X' : Forall (good_proxy (fst (do_statement s c))) (pm_taken s)) by (eapply Forall_impl; [|exact X]; intros x; apply proxy_further, F).
  destruct s as [named vs ts ns its taken]. cbn [pm_vertices pm_triangles pm_normals pm_taken] in *. destruct c; cbn [PyMeshModel.do_statement] in *; try (split; [exact T|]; split; [exact X|]; split; [exact Cv|exact Cn]).
  - destruct named; [|split; [exact T|]; split; [exact X|]; split; [exact Cv|exact Cn]]. split. { cbn. rewrite push_items. revert T. clear. intros T. induction T; constructor; [apply good_app; assumption|assumption]. } split; [exact X'|]. split; [apply push_cap|exact Cn].
  - destruct named; [|split; [exact T|]; split; [exact X|]; split; [exact Cv|exact Cn]]. destruct (corners (v_items vs) t) as [p|] eqn:P; [|split; [exact T|]; split; [exact X|]; split; [exact Cv|exact Cn]].
    split. { cbn. rewrite !push_items. apply Forall2_app; [exact T|]. constructor; [|constructor]. exists p. split; [exact P|reflexivity]. } split; [exact X'|]. split; [exact Cv|apply push_cap].
  - destruct named; [|split; [exact T|]; split; [exact X|]; split; [exact Cv|exact Cn]]. split. { cbn. rewrite !reserve_items. exact T. } split; [exact X'|]. split; [apply reserve_cap, Cv|apply reserve_cap, Cn].
  - destruct named; split; try exact T; split; try exact X; split; try exact Cv; exact Cn.
  - destruct named; split; try exact T; split; try exact X; split; try exact Cv; exact Cn.
  - destruct (nth_error its k) as [[c|]|]; try (split; [exact T|]; split; [exact X|]; split; [exact Cv|exact Cn]). unfold next in *. destruct (c_triangles c); (destruct (_ <=? _); [split; [exact T|]; split; [exact X|]; split; [exact Cv|exact Cn]|]).
    + destruct (nth_error (v_items ts) (c_index c)) as [t|] eqn:Nt; [|split; [exact T|]; split; [exact X|]; split; [exact Cv|exact Cn]]. destruct (triangle_n _ _); [|split; [exact T|]; split; [exact X|]; split; [exact Cv|exact Cn]].
      split; [exact T|]. split; [|split; [exact Cv|exact Cn]]. cbn [fst pm_taken]. apply Forall_app. split; [exact X'|]. constructor; [|constructor]. split; [exact Nt|]. cbn. split; lia.
    + destruct (nth_error (v_items vs) (c_index c)); split; try exact T; split; try exact X'; split; try exact Cv; exact Cn.
Qed.
Lemma new_ok : ok new_mesh. Proof. split; [constructor|]. split; [constructor|]. split; cbn; lia. Qed.
Lemma execute_ok l : forall s s' rs, execute l s = Some (s', rs) -> ok s -> ok s'.
Proof. intros s s' rs E. revert E. apply (execute_keeps (fun s s' => ok s -> ok s')); [auto|auto|intros; apply do_ok; assumption]. Qed.
Lemma ok_well_formed s : ok s -> well_formed (contents s).
Proof.
  intros (T & _). unfold well_formed, contents. cbn [m_vertices m_triangles m_normals]. split; [symmetry; exact (F2_length _ _ _ T)|]. apply Forall_forall. intros t I. apply In_nth_error in I. destruct I as [i I]. destruct (nth_F2 _ _ _ T _ _ I) as (n & _ & p & C & _).
  destruct t as [[a b] c]. cbn in C. destruct (nth_error (v_items (pm_vertices s)) a) eqn:A; [|discriminate]. destruct (nth_error (v_items (pm_vertices s)) b) eqn:B; [|discriminate]. destruct (nth_error (v_items (pm_vertices s)) c) eqn:E; [|discriminate].
  repeat split; apply nth_error_Some; congruence.
Qed.
End PyMesh.
