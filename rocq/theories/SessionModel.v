(** Model of a whole session with an embedded model: the calls of its public functions in any order, the model info and the files
    that they write.
    Source: /repo/queso/embedded_model.h and /repo/queso/embedded_model.cpp; the accessors by compile-time key of
    /repo/queso/containers/dictionary.hpp.
    Simplifications: doubles are a parameter D with the operations that are used; the computations on meshes (volume, area,
    classification, elements, segments) are parameters, they are modelled in MeshGeoModel, FloodModel, VolumeModel and
    ConditionModel; messages are left out, but not the checks that are made before they are printed; the timers of parts of a
    computation are parameters. *)
From Coq Require Import String Ascii Bool NArith ZArith QArith Arith List.
From Verif Require Import KeysModel SettingsKeys DictModel SettingsModel JsonModel BufferModel MeshModel StlModel VtkModel ConditionStlProps.
Import ListNotations.
Local Open Scope nat_scope.

(** Result of a call: it returns, an exception leaves it, or the program ends (std::terminate or undefined behaviour). *)
Inductive reply (A : Type) := Return (a : A) | Throw | Stop.
Arguments Return {A} a. Arguments Throw {A}. Arguments Stop {A}.

(** The kinds of timers, embedded_model.cpp:45, 205, 297. *)
Inductive kind := TimeVolume | TimeCondition | TimeWrite.

Section Session.
Variable D : Type.
Notation dict := (dict D).
Notation vmesh := (mesh (vec D)).

(** An element: is it trimmed, its box, and its integration points in global space. *)
Record element := Element { el_trimmed : bool; el_box : vec D * vec D; el_points : list (wpoint D) }.
(** The computations on meshes. *)
Record engine := Engine {
  en_geometry : vmesh -> option (D * bool);                    (* volume and closedness, embedded_model.cpp:35-38 *)
  en_prepare : vmesh -> bool;                                  (* BRepOperator and classification, :49-53, do not throw *)
  en_elements : list element -> vmesh -> option (list element); (* :60-113, added to the elements that exist *)
  en_times : vmesh -> D * D * D * D;                           (* classification, intersections, moment fitting, GGQ *)
  en_represented : list element -> D;                          (* :155-163 *)
  en_area : vmesh -> option D;                                 (* :218 *)
  en_tree : vmesh -> bool;                                     (* the BRepOperator, :232, does not throw *)
  en_segments : list element -> vmesh -> option (list vmesh * D); (* the segments and their area in active elements, :237-260 *)
  en_cells : N }.                                              (* mGridIndexer.NumberOfElements() *)
(** What a session depends on. *)
Record world := World {
  w_dbl : Q -> D;                          (* double literals *)
  w_add : D -> D -> D;                     (* + *)
  w_ratio : N -> N -> D;                   (* a / b for integers that were converted to double *)
  w_percent : D -> D -> D;                 (* a / b * 100.0 *)
  w_bits : D -> N;                         (* the bits of a double *)
  w_to_float : D -> N;                     (* the bits of the nearest float, and the double with the value of a float *)
  w_of_float : N -> D;
  w_show : D -> text;                      (* decimal text with the precisions that are used *)
  w_show6 : D -> text;
  w_show15 : D -> text;
  w_scan : text -> scanned;                (* reading of a number *)
  w_less : vec D -> vec D -> bool;         (* PointComparison *)
  w_normal : tri (vec D) -> vec D;
  w_host : endian;
  w_size : N;                              (* the size of the buffer of the writer *)
  w_can_open : text -> bool;               (* the files that can be created or opened for writing *)
  w_disk : text -> medium;                 (* the media *)
  w_clock : nat -> D;                      (* what the n-th timer of a computation measures *)
  w_engine : engine }.
Variable w : world.
Notation dbl := (w_dbl w). Notation add := (w_add w). Notation ratio := (w_ratio w). Notation percent := (w_percent w).
Notation bits := (w_bits w). Notation to_float := (w_to_float w). Notation of_float := (w_of_float w). Notation show := (w_show w).
Notation show6 := (w_show6 w). Notation show15 := (w_show15 w). Notation scan := (w_scan w). Notation less := (w_less w).
Notation normal := (w_normal w). Notation host := (w_host w). Notation size := (w_size w). Notation can_open := (w_can_open w).
Notation disk := (w_disk w). Notation clock := (w_clock w). Notation en := (w_engine w).

(** The members of EmbeddedModel that change (embedded_model.h:234-237), the files, and as ghost the times that were measured. *)
Record state := State { st_info : dict; st_elements : list element; st_conditions : list (dict * list vmesh);
  st_files : text -> option bytes; st_log : list (kind * D) }.

(** State and exceptions. *)
Definition M (A : Type) := state -> state * reply A.
Definition ret {A} (a : A) : M A := fun s => (s, Return a).
Definition throw {A} : M A := fun s => (s, Throw).
Definition stop {A} : M A := fun s => (s, Stop).
Definition mbind {A B} (m : M A) (f : A -> M B) : M B :=
  fun s => match m s with (s, Return a) => f a s | (s, Throw) => (s, Throw) | (s, Stop) => (s, Stop) end.
(** Exceptions of noexcept functions and undefined behaviour end the program. *)
Definition lift {A} (r : res A) : M A := match r with Ok a => ret a | Error => throw | Abort => stop | Undefined => stop end.
Definition need {A} (o : option A) : M A := match o with Some a => ret a | None => stop end.
Definition info : M dict := fun s => (s, Return (st_info s)).
Definition elements : M (list element) := fun s => (s, Return (st_elements s)).
Definition set_info (d : dict) : M unit := fun s => (State d (st_elements s) (st_conditions s) (st_files s) (st_log s), Return tt).
Definition set_elements (l : list element) : M unit := fun s => (State (st_info s) l (st_conditions s) (st_files s) (st_log s), Return tt).
Definition add_condition (c : dict * list vmesh) : M unit := fun s => (State (st_info s) (st_elements s) (st_conditions s ++ [c]) (st_files s) (st_log s), Return tt).
Definition put_file (n : text) (b : bytes) : M unit :=
  fun s => (State (st_info s) (st_elements s) (st_conditions s) (fun m => if text_eqb m n then Some b else st_files s m) (st_log s), Return tt).
(** Timer::Measure() *)
Definition measure (k : kind) : M D :=
  fun s => let t := clock (length (st_log s)) in (State (st_info s) (st_elements s) (st_conditions s) (st_files s) (st_log s ++ [(k, t)]), Return t).
Notation "x <- m ; f" := (mbind m (fun x => f)) (at level 61, m at next level, right associativity).
Notation "m ;; f" := (mbind m (fun _ => f)) (at level 61, right associativity).

(** A change of the sub-dictionary r[k], dictionary.hpp:226-258. *)
Definition key_update (k : key) (f : dict -> res dict) (d : dict) : res dict :=
  bind (key_sub d k) (fun x => bind (f x) (fun x => key_set_sub (Ok d) k (Ok x))).
(** SetValue as a function on dictionaries. *)
Definition set_key (k : key) (v : value D) (d : dict) : res dict := key_set_value (Ok d) k v.
(** GetList by compile-time key, dictionary.hpp:265-287: the list, and the dictionary with another list. *)
Definition key_list (d : dict) (k : key) : res (list (option dict)) :=
  match d_lists d with None => Undefined | Some (_, ll) => match nth_error ll (k_index k) with Some l => Ok l | None => Undefined end end.
Definition key_set_list (d : dict) (k : key) (l : list (option dict)) : res dict :=
  match d with
  | Dict _ _ None => Undefined
  | Dict v s (Some (ks, ll)) => match set_nth (k_index k) l ll with Some ll => Ok (Dict v s (Some (ks, ll))) | None => Undefined end
  end.
(** *list.back(): the list without its last entry and this entry. *)
Definition back (l : list (option dict)) : res (list (option dict) * dict) :=
  match rev l with Some x :: r => Ok (rev r, x) | _ => Undefined end.
Definition change_info (f : dict -> res dict) : M unit := d <- info; d <- lift (f d); set_info d.

Definition as_text (v : value D) : res text := match v with VString t => Ok t | _ => Abort end.
Definition as_bool (v : value D) : res bool := match v with VBool b => Ok b | _ => Abort end.
Definition as_double (v : value D) : res D := match v with VDouble d => Ok d | _ => Abort end.
Definition get_index (d : dict) (k : key) : res N := bind (key_get TIndex d k) as_index.
Definition get_text (d : dict) (k : key) : res text := bind (key_get TString d k) as_text.
Definition get_bool (d : dict) (k : key) : res bool := bind (key_get TBool d k) as_bool.
Definition get_double (d : dict) (k : key) : res D := bind (key_get TDouble d k) as_double.

(** mpSettings; it is const. *)
Variable settings : dict.
Definition general : res dict := key_sub settings MainSettings_general_settings.
Definition echo_level : res N := bind general (fun g => get_index g GeneralSettings_echo_level).

(** CheckIfMeshIsWithinBoundingBox, embedded_model.cpp:345-371. *)
Definition check_box : M unit :=
  echo <- lift echo_level;
  if (0 <? echo)%N then
    g <- lift (key_sub settings MainSettings_background_grid_settings);
    lift (key_get TPoint g BackgroundGridSettings_lower_bound_xyz);;
    lift (key_get TPoint g BackgroundGridSettings_upper_bound_xyz);;
    ret tt
  else ret tt.

(** PrintVolumeInfo, embedded_model.cpp:373-402. *)
Definition print_volume_info : M unit :=
  echo <- lift echo_level;
  if (0 <? echo)%N then
    d <- info;
    g <- lift (key_sub d MainInfo_background_grid_info);
    lift (check_required g);;
    lift (get_index g BackgroundGridInfo_num_active_elements);;
    lift (get_index g BackgroundGridInfo_num_trimmed_elements);;
    q <- lift (key_sub d MainInfo_quadrature_info);
    lift (check_required q);;
    lift (get_index q QuadratureInfo_tot_num_points);;
    (if (1 <? echo)%N then lift (get_double q QuadratureInfo_percentage_of_geometry_volume);; ret tt else ret tt)
  else ret tt.

(** The sums over the elements, embedded_model.cpp:152-174. *)
Definition count (f : element -> bool) (l : list element) : nat := length (List.filter f l).
Definition points (f : element -> bool) (l : list element) : nat := fold_left (fun n e => if f e then n + length (el_points e) else n) l 0.
Definition average (n m : N) : D := if (0 <? m)%N then ratio n m else dbl 0.

(** ComputeVolume, embedded_model.cpp:27-195. *)
Definition set_geometry (k : key) (v : value D) : M unit := change_info (key_update MainInfo_embedded_geometry_info (set_key k v)).
Definition set_grid (k : key) (v : value D) : M unit := change_info (key_update MainInfo_background_grid_info (set_key k v)).
Definition set_quadrature (k : key) (v : value D) : M unit := change_info (key_update MainInfo_quadrature_info (set_key k v)).
Definition set_time (k : key) (v : value D) : M unit := change_info (key_update MainInfo_elapsed_time_info (set_key k v)).
Definition set_part_time (p k : key) (v : value D) : M unit := change_info (key_update MainInfo_elapsed_time_info (key_update p (set_key k v))).
Definition add_total (t : D) : M unit :=
  d <- info;
  times <- lift (key_sub d MainInfo_elapsed_time_info);
  lift (check_required times);;
  total <- lift (get_double times ElapsedTimeInfo_total);
  set_time ElapsedTimeInfo_total (VDouble (add total t)).
Definition compute_volume (m : vmesh) : M unit :=
  check_box;;                                                                                  (* :30 *)
  vc <- need (en_geometry en m);                                                               (* :35-37 *)
  set_geometry EmbeddedGeometryInfo_volume (VDouble (fst vc));;                                (* :36 *)
  set_geometry EmbeddedGeometryInfo_is_closed (VBool (snd vc));;                               (* :38 *)
  (if en_prepare en m then ret tt else throw);;                                                (* :49-53 *)
  let '(t_class, t_inter, t_moment, t_ggq) := en_times en m in
  set_part_time ElapsedTimeInfo_volume_time_info VolumeTimeInfo_classification_of_elements (VDouble t_class);; (* :56 *)
  old <- elements;
  els <- need (en_elements en old m);                                                          (* :59-113 *)
  set_elements els;;
  t <- measure TimeVolume;                                                                     (* :116 *)
  set_part_time ElapsedTimeInfo_volume_time_info VolumeTimeInfo_total (VDouble t);;            (* :122 *)
  add_total t;;                                                                                (* :123-125 *)
  set_part_time ElapsedTimeInfo_volume_time_info VolumeTimeInfo_computation_of_intersections (VDouble t_inter);;   (* :129-132 *)
  set_part_time ElapsedTimeInfo_volume_time_info VolumeTimeInfo_solution_of_moment_fitting_eqs (VDouble t_moment);; (* :133-136 *)
  set_part_time ElapsedTimeInfo_volume_time_info VolumeTimeInfo_construction_of_ggq_rules (VDouble t_ggq);;        (* :137 *)
  let active := N.of_nat (length els) in                                                       (* :140-143 *)
  let trimmed := N.of_nat (count el_trimmed els) in
  let full := (active - trimmed)%N in
  set_grid BackgroundGridInfo_num_active_elements (VIndex active);;                            (* :145-152 *)
  set_grid BackgroundGridInfo_num_trimmed_elements (VIndex trimmed);;
  set_grid BackgroundGridInfo_num_full_elements (VIndex full);;
  set_grid BackgroundGridInfo_num_inactive_elements (VIndex (en_cells en - active)%N);;
  let p_trimmed := N.of_nat (points el_trimmed els) in                                         (* :158-171 *)
  let p_full := N.of_nat (points (fun e => negb (el_trimmed e)) els) in
  let represented := en_represented en els in
  set_quadrature QuadratureInfo_tot_num_points (VIndex (p_trimmed + p_full)%N);;               (* :172-190 *)
  set_quadrature QuadratureInfo_represented_volume (VDouble represented);;
  set_quadrature QuadratureInfo_percentage_of_geometry_volume (VDouble (percent represented (fst vc)));;
  set_quadrature QuadratureInfo_num_of_points_per_full_element (VDouble (average p_full full));;
  set_quadrature QuadratureInfo_num_of_points_per_trimmed_element (VDouble (average p_trimmed trimmed));;
  print_volume_info.                                                                           (* :194 *)

(** PrintConditionInfo for the last entry of the list, embedded_model.cpp:436-457. *)
Definition print_condition_info (c : dict) : M unit :=
  echo <- lift echo_level;
  if (0 <? echo)%N then
    lift (check_required c);;
    lift (get_index c ConditionInfo_condition_id);;
    (if (1 <? echo)%N then
       lift (get_double c ConditionInfo_surf_area);;
       lift (get_double c ConditionInfo_perc_surf_area_in_active_domain);; ret tt
     else ret tt)
  else ret tt.

(** ComputeCondition, embedded_model.cpp:197-288. *)
Definition push_info (c : dict) : M unit :=                                                    (* :222 *)
  change_info (fun d => bind (key_list d MainInfo_conditions_infos_list) (fun l => key_set_list d MainInfo_conditions_infos_list (l ++ [Some c]))).
Definition last_info : M dict :=                                                               (* :227 *)
  d <- info; lift (bind (key_list d MainInfo_conditions_infos_list) (fun l => bind (back l) (fun x => Ok (snd x)))).
Definition change_last (f : dict -> res dict) : M unit :=
  change_info (fun d => bind (key_list d MainInfo_conditions_infos_list) (fun l => bind (back l) (fun x => bind (f (snd x)) (fun c =>
    key_set_list d MainInfo_conditions_infos_list (fst x ++ [Some c]))))).
Definition compute_condition (m : vmesh) (cs : dict) : M unit :=
  check_box;;                                                                                  (* :202 *)
  c <- lift create_condition_info;                                                             (* :213 *)
  id <- lift (get_index cs ConditionSettings_condition_id);                                    (* :216 *)
  c <- lift (set_key ConditionInfo_condition_id (VIndex id) c);                                (* :217 *)
  area <- need (en_area en m);                                                                 (* :218 *)
  c <- lift (set_key ConditionInfo_surf_area (VDouble area) c);                                (* :219 *)
  push_info c;;                                                                                (* :222 *)
  (if en_tree en m then ret tt else throw);;                                                   (* :231 *)
  els <- elements;
  sg <- need (en_segments en els m);                                                           (* :237-259 *)
  add_condition (cs, fst sg);;                                                                 (* :262 *)
  change_last (set_key ConditionInfo_perc_surf_area_in_active_domain (VDouble (percent (snd sg) area)));; (* :267-269 *)
  t <- measure TimeCondition;                                                                  (* :272 *)
  add_total t;;                                                                                (* :275-277 *)
  d <- info;
  times <- lift (key_sub d MainInfo_elapsed_time_info);
  part <- lift (key_sub times ElapsedTimeInfo_conditions_time_info);
  lift (check_required part);;                                                                 (* :280 *)
  total <- lift (get_double part ConditionsTimeInfo_total);                                    (* :281 *)
  set_part_time ElapsedTimeInfo_conditions_time_info ConditionsTimeInfo_total (VDouble (add total t));; (* :282 *)
  c <- last_info;
  print_condition_info c.                                                                      (* :287 *)

(** A file that is opened, written and closed. An std::ofstream that cannot be opened throws (QuESo_ERROR_IF); opening empties the
    file. *)
Definition save (n : text) (writer : medium -> saved) : M unit :=
  if can_open n then
    match writer (disk n) with
    | Saved b => put_file n b
    | SaveError b => put_file n b;; throw
    | SaveTerminated b => put_file n b;; stop
    | SaveUndefined => stop
    end
  else throw.
(** WriteDictionaryToJSON, io_utilities.tpp:24-33. *)
Definition write_json (d : dict) (dk : medium) : saved :=
  match print_dict show d with
  | Ok t => finish (put_all dk new_file [t])
  | Error => SaveError []
  | _ => SaveUndefined
  end.
(** The names of the files, embedded_model.cpp:306-320, 338. *)
Definition condition_file (dir : text) (id : N) : text := dir ++ lit "/condition_id_" ++ show_index id ++ lit ".stl".
Fixpoint save_conditions (dir : text) (l : list (dict * list vmesh)) : M unit :=
  match l with
  | [] => ret tt
  | (cs, ms) :: l =>
      id <- lift (get_index cs ConditionSettings_condition_id);                                (* :314-315 *)
      save (condition_file dir id) (fun dk => write_condition to_float show6 dk host size ms enc_binary);; (* :318 *)
      save_conditions dir l
  end.
(** WriteModelToFile, embedded_model.cpp:290-343. *)
Definition write_model : M unit :=
  g <- lift general;
  on <- lift (get_bool g GeneralSettings_write_output_to_file);                                (* :294 *)
  if on : bool then
    dir <- lift (get_text g GeneralSettings_output_directory_name);                            (* :299-300 *)
    lift (get_index g GeneralSettings_echo_level);;                                            (* :301 *)
    els <- elements;
    save (dir ++ lit "/elements.vtk") (fun dk => write_elements_vtk D bits show15 dk host size (map el_box els) enc_binary);;             (* :305 *)
    save (dir ++ lit "/integration_points.vtk") (fun dk => write_points_vtk D bits show15 dk host size (map el_points els) enc_binary);;  (* :306-308 *)
    (fun s => save_conditions dir (st_conditions s) s);;                                       (* :309-320 *)
    t <- measure TimeWrite;                                                                    (* :326 *)
    add_total t;;                                                                              (* :327-330 *)
    set_part_time ElapsedTimeInfo_write_files_time_info WriteFilesTimeInfo_total (VDouble t);; (* :333-334 *)
    d <- info;
    save (dir ++ lit "/model_info.json") (write_json d)                                        (* :338 *)
  else ret tt.

(** ReadMeshFromSTL for the name of a file, io_utilities.cpp:155-164, 170-172. *)
Definition load (n : text) : M vmesh := fun s =>
  match st_files s n with
  | None => (s, Throw)
  | Some b => match read_stl D of_float scan less normal host b with
              | Loaded m => (s, Return m)
              | LoadError => (s, Throw)
              | _ => (s, Stop)
              end
  end.
(** PrintVolumeElapsedTimeInfo, embedded_model.cpp:404-434. *)
Definition print_volume_times : M unit :=
  d <- info;
  echo <- lift echo_level;
  times <- lift (key_sub d MainInfo_elapsed_time_info);
  v <- lift (key_sub times ElapsedTimeInfo_volume_time_info);
  lift (check_required v);;
  (if (0 <? echo)%N then lift (get_double v VolumeTimeInfo_total);; ret tt else ret tt);;
  (if (1 <? echo)%N then
     lift (get_double v VolumeTimeInfo_classification_of_elements);; lift (get_double v VolumeTimeInfo_computation_of_intersections);;
     lift (get_double v VolumeTimeInfo_solution_of_moment_fitting_eqs);; lift (get_double v VolumeTimeInfo_construction_of_ggq_rules);; ret tt
   else ret tt).
(** PrintConditionsElapsedTimeInfo, embedded_model.cpp:459-472. *)
Definition print_condition_times : M unit :=
  echo <- lift echo_level;
  if (0 <? echo)%N then
    d <- info;
    times <- lift (key_sub d MainInfo_elapsed_time_info);
    c <- lift (key_sub times ElapsedTimeInfo_conditions_time_info);
    lift (check_required c);;
    lift (get_double c ConditionsTimeInfo_total);; ret tt
  else ret tt.
(** The loop of CreateAllFromSettings over the settings of the conditions, embedded_model.h:114-119. *)
Fixpoint create_conditions (l : list (option dict)) : M unit :=
  match l with
  | [] => ret tt
  | None :: _ => stop
  | Some cs :: l =>
      file <- lift (get_text cs ConditionSettings_input_filename);
      m <- load file;
      compute_condition m cs;;
      create_conditions l
  end.
(** CreateAllFromSettings, embedded_model.h:94-127. *)
Definition create_all : M unit :=
  g <- lift general;
  lift (get_index g GeneralSettings_echo_level);;
  file <- lift (get_text g GeneralSettings_input_filename);                                    (* :100 *)
  m <- load file;                                                                              (* :101-102 *)
  compute_volume m;;                                                                           (* :104 *)
  print_volume_times;;                                                                         (* :105 *)
  l <- lift (key_list settings MainSettings_conditions_settings_list);                         (* :110 *)
  (match l with [] => ret tt | _ => create_conditions l;; print_condition_times end);;         (* :111-122 *)
  write_model.                                                                                 (* :125 *)

(** EmbeddedModel::Create, embedded_model.h:61-76: the state of a new model. *)
Definition create_model (files : text -> option bytes) : res state :=
  bind (check_settings settings) (fun _ => bind (create_model_info dbl) (fun d => Ok (State d [] [] files []))).

(** The public functions, embedded_model.h:94-157. *)
Inductive call := CreateVolume (m : vmesh) | CreateCondition (m : vmesh) (cs : dict) | WriteModelToFile | CreateAllFromSettings.
Definition do_call (c : call) : M unit :=
  match c with
  | CreateVolume m => compute_volume m
  | CreateCondition m cs => compute_condition m cs
  | WriteModelToFile => write_model
  | CreateAllFromSettings => create_all
  end.
(** A program: exceptions are caught; None: the program has ended. The replies of the calls are recorded. *)
Fixpoint run_calls (l : list call) (s : state) : option (state * list (reply unit)) :=
  match l with
  | [] => Some (s, [])
  | c :: l => match do_call c s with
              | (_, Stop) => None
              | (s, r) => match run_calls l s with Some (s, rs) => Some (s, r :: rs) | None => None end
              end
  end.
End Session.

Arguments Element {D} el_trimmed el_box el_points. Arguments el_trimmed {D} e. Arguments el_box {D} e. Arguments el_points {D} e.
Arguments State {D} st_info st_elements st_conditions st_files st_log.
Arguments st_info {D} s. Arguments st_elements {D} s. Arguments st_conditions {D} s. Arguments st_files {D} s. Arguments st_log {D} s.
Arguments en_geometry {D} e. Arguments en_prepare {D} e. Arguments en_elements {D} e. Arguments en_times {D} e. Arguments en_represented {D} e.
Arguments en_area {D} e. Arguments en_tree {D} e. Arguments en_segments {D} e. Arguments en_cells {D} e.
Arguments w_dbl {D} w. Arguments w_add {D} w. Arguments w_ratio {D} w. Arguments w_percent {D} w. Arguments w_bits {D} w. Arguments w_to_float {D} w.
Arguments w_of_float {D} w. Arguments w_show {D} w. Arguments w_show6 {D} w. Arguments w_show15 {D} w. Arguments w_scan {D} w. Arguments w_less {D} w.
Arguments w_normal {D} w. Arguments w_host {D} w. Arguments w_size {D} w. Arguments w_can_open {D} w. Arguments w_disk {D} w. Arguments w_clock {D} w. Arguments w_engine {D} w.
Arguments ret {D A} a. Arguments throw {D A}. Arguments stop {D A}. Arguments mbind {D A B} m f. Arguments lift {D A} r. Arguments need {D A} o.
Arguments info {D}. Arguments elements {D}. Arguments set_info {D} d. Arguments set_elements {D} l. Arguments add_condition {D} c. Arguments put_file {D} n b.
Arguments measure {D} w k. Arguments key_update {D} k f d. Arguments set_key {D} k v d. Arguments key_list {D} d k. Arguments key_set_list {D} d k l. Arguments back {D} l.
Arguments change_info {D} f. Arguments get_index {D} d k. Arguments get_text {D} d k. Arguments get_bool {D} d k. Arguments get_double {D} d k.
Arguments general {D} settings. Arguments echo_level {D} settings. Arguments check_box {D} settings. Arguments print_volume_info {D} settings.
Arguments count {D} f l. Arguments points {D} f l. Arguments average {D} w n m. Arguments set_geometry {D} k v. Arguments set_grid {D} k v. Arguments set_quadrature {D} k v.
Arguments set_time {D} k v. Arguments set_part_time {D} p k v. Arguments add_total {D} w t. Arguments compute_volume {D} w settings m.
Arguments print_condition_info {D} settings c. Arguments push_info {D} c. Arguments last_info {D}. Arguments change_last {D} f. Arguments compute_condition {D} w settings m cs.
Arguments save {D} w n writer. Arguments write_json {D} w d dk. Arguments save_conditions {D} w dir l. Arguments write_model {D} w settings. Arguments load {D} w n.
Arguments print_volume_times {D} settings. Arguments print_condition_times {D} settings. Arguments create_conditions {D} w settings l. Arguments create_all {D} w settings.
Arguments create_model {D} w settings files. Arguments CreateVolume {D} m. Arguments CreateCondition {D} m cs. Arguments WriteModelToFile {D}. Arguments CreateAllFromSettings {D}.
Arguments do_call {D} w settings c. Arguments run_calls {D} w settings l s.
