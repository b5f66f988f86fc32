(** Model of the class PyQuESo: its constructor with the output directory, and Python programs that call its methods in any order, keep
    references to what they return, and delete the object.
    Source: /repo/queso/python/PyQuESo.py; /repo/queso/python/bindings/define_python.hpp (UniqueHolder) and add_containers_to_python.cpp;
    the life time of references in /repo/external_libraries/pybind11/detail/type_caster_base.h.
    Simplifications: a file system without links and without other processes, in which the user may change everything; the names of
    files in a session are not aliases (as in SessionModel); one object of the class, its settings, its model info and its elements;
    GetConditions, GetBSplineVolume (BSplineModel) and the Kratos related functions are left out. *)
From Coq Require Import String Ascii Bool NArith ZArith QArith Arith List.
From Verif Require Import KeysModel SettingsKeys DictModel SettingsModel JsonModel JsonIoModel BufferModel MeshModel StlModel VtkModel SessionModel.
Import ListNotations.
Local Open Scope nat_scope.

(** The file system: a path is the list of its components, the innermost first; the root is the empty list. *)
Definition path := list text.
Inductive node := Folder | Content (b : bytes).
Definition tree := path -> option node.
Definition path_eqb (p q : path) : bool := if list_eq_dec (list_eq_dec ascii_dec) p q then true else false.

(** The parts of a name between the characters '/'. *)
Fixpoint split (t : text) : list text :=
  match t with
  | [] => [[]]
  | c :: t => if Ascii.eqb c "/" then [] :: split t else match split t with x :: r => (c :: x) :: r | [] => [[c]] end
  end.
Definition components (t : text) : list text := List.filter (fun c => negb (text_eqb c [])) (split t).
(** POSIX path resolution: where a name starts and what a component means. *)
Definition start (cwd : path) (t : text) : path := match t with c :: _ => if Ascii.eqb c "/" then [] else cwd | [] => cwd end.
Definition enter (p : path) (c : text) : path := if text_eqb c (lit ".") then p else if text_eqb c (lit "..") then tl p else c :: p.
Fixpoint folder (fs : tree) (p : path) (cs : list text) : option path :=
  match fs p with
  | Some Folder => match cs with [] => Some p | c :: cs => folder fs (enter p c) cs end
  | _ => None
  end.
(** The contents of the file with a name. *)
Definition view (fs : tree) (cwd : path) (n : text) : option bytes :=
  match rev (split n), rev (components n) with
  | [] :: _, _ => None
  | _, c :: r => match folder fs (start cwd n) (rev r) with
                 | Some p => match fs (enter p c) with Some (Content b) => Some b | _ => None end
                 | None => None
                 end
  | _, [] => None
  end.
(** q is p or beneath p. *)
Definition beneath (p q : path) : bool := path_eqb (skipn (length q - length p) q) p.
(** shutil.rmtree of an existing folder p: first everything beneath, then os.rmdir, which fails if the name ends with "." or "..". *)
Definition rmtree (fs : tree) (p : path) (cs : list text) : tree * bool :=
  let empty := fun q => if beneath p q && negb (path_eqb q p) then None else fs q in
  let c := last cs [] in
  if text_eqb c (lit ".") || text_eqb c (lit "..") then (empty, false)
  else (fun q => if beneath p q then None else fs q, true).
(** os.mkdir; None: it throws. *)
Definition mkdir (fs : tree) (p : path) (cs : list text) : option tree :=
  let c := last cs [] in
  if text_eqb c (lit ".") || text_eqb c (lit "..") then None
  else match folder fs p (removelast cs) with
       | Some q => match fs (c :: q) with
                   | None => Some (fun r => if path_eqb r (c :: q) then Some Folder else fs r)
                   | Some _ => None
                   end
       | None => None
       end.

Section PyQueso.
Variable D : Type.
Variable w : world D.
Variable of_int : Z -> D.
Variable to_float : text -> D.               (* float(text) of a number in a settings file *)
Variable positive : D -> bool.               (* weight > 0 *)
Variable cwd : path.                         (* the working directory *)
Notation dict := (dict D).
Notation wpoint := (wpoint D).

(** What a Python reference to the settings keeps alive: the object that returned it (return_value_policy::reference_internal). *)
Inductive keeper := KeepHolder | KeepModel.
(** The object and the references of the program. *)
Record py := Py {
  py_alive : bool;                           (* the program has not deleted the object *)
  py_holder : option (option dict);          (* _settings_holder: None, or a UniqueHolder with or without its data *)
  py_model : option (dict * state D);        (* _embedded_model, if there is this attribute: its settings and its state *)
  py_settings : option keeper;               (* a reference to the settings *)
  py_info : bool;                            (* a reference to the model info, it keeps the model alive *)
  py_elements : bool;                        (* the list of GetElements(), the elements keep nothing alive *)
  py_files : text -> option bytes }.         (* the files before Run *)

(** settings["general_settings"].GetBool / GetString, PyQuESo.py:23-24. *)
Definition general_bool (d : dict) (n : text) : res bool :=
  bind (go d (Sub (lit "general_settings"))) (fun g => bind (dict_get TBool g n) (as_bool D)).
Definition general_text (d : dict) (n : text) : res text :=
  bind (go d (Sub (lit "general_settings"))) (fun g => bind (dict_get TString g n) (as_text D)).
Definition new_object (d : dict) (fs : tree) : py := Py true (Some (Some d)) None None false false (view fs cwd).
(** PyQuESo.__init__, PyQuESo.py:15-31. *)
Definition output_folder (dir : text) : text := lit "./" ++ dir ++ lit "/".                     (* :26 *)
Definition clear (fs : tree) (dir : text) : tree * bool :=
  let cs := components (output_folder dir) in
  let make fs := match mkdir fs cwd cs with Some fs => (fs, true) | None => (fs, false) end in  (* :29 *)
  match folder fs cwd cs with                                                                  (* :27 *)
  | Some p => match rmtree fs p cs with (fs, true) => make fs | (fs, false) => (fs, false) end  (* :28 *)
  | None => make fs
  end.
Definition new (fs : tree) (json : text) : tree * reply py :=
  match view fs cwd json with
  | None => (fs, Throw)
  | Some t =>
      match read_settings of_int (w_dbl w) to_float t with                                     (* :21 *)
      | Ok d =>
          match general_bool d (lit "write_output_to_file"), general_text d (lit "output_directory_name") with
          | Ok on, Ok dir =>
              if on then match clear fs dir with (fs, true) => (fs, Return (new_object d fs)) | (fs, false) => (fs, Throw) end
              else (fs, Return (new_object d fs))
          | Error, _ | Ok _, Error => (fs, Throw)
          | _, _ => (fs, Stop)
          end
      | Error => (fs, Throw)
      | _ => (fs, Stop)
      end
  end.

(** The attributes of an IntegrationPoint in Python, add_containers_to_python.cpp:122-146. *)
Definition point_attributes : list text := map lit ["x"; "y"; "z"; "weight"; "__getitem__"; "__len__"; "__iter__"; "__repr__"]%string.
Definition has_attribute (n : text) : bool := existsb (text_eqb n) point_attributes.
(** GetIntegrationPoints, PyQuESo.py:81-101: the loops; None: AttributeError. *)
Fixpoint trimmed_points (l : list wpoint) : option (list wpoint) :=
  match l with
  | [] => Some []
  | p :: l => if has_attribute (lit "Weight") then                                             (* :94 *)
                match trimmed_points l with Some r => Some (if positive (wp_weight D p) then p :: r else r) | None => None end
              else None
  end.
Fixpoint gather (l : list (element D)) : option (list wpoint) :=
  match l with
  | [] => Some []
  | e :: l =>
      match (if el_trimmed e then trimmed_points (el_points e) else Some (el_points e)) with
      | Some a => match gather l with Some b => Some (a ++ b) | None => None end
      | None => None
      end
  end.

(** Statements of a program; p is the object. *)
Inductive statement :=
| Run                                        (* p.Run() *)
| TakeSettings                               (* s = p.GetSettings() *)
| ReadSettings                               (* a use of s *)
| DropSettings                               (* del s *)
| Change (op : list DictModel.step * action D)         (* p.GetSettings()...SetValue(...) or append *)
| TakeInfo                                   (* i = p.GetModelInfo() *)
| ReadInfo                                   (* a use of i *)
| DropInfo                                   (* del i *)
| TakeElements                               (* e = p.GetElements() *)
| ReadElements                               (* a use of the elements in e *)
| Points                                     (* p.GetIntegrationPoints() *)
| Delete.                                    (* del p *)
Inductive answer := Nothing | Settings (d : dict) | Info (d : dict) | Elements (l : list (element D)) | PointList (l : list wpoint).

(** An object lives as long as something refers to it. *)
Definition model_alive (p : py) : bool := py_alive p || match py_settings p with Some KeepModel => true | _ => false end || py_info p.
Definition holder_alive (p : py) : bool := py_alive p || match py_settings p with Some KeepHolder => true | _ => false end.
(** The settings, if they have not been destroyed: they belong to the holder or to the model. *)
Definition settings_alive (p : py) : option dict :=
  match py_holder p with
  | Some (Some d) => if holder_alive p then Some d else None
  | _ => match py_model p with Some (d, _) => if model_alive p then Some d else None | None => None end
  end.
(** GetSettings, PyQuESo.py:58-67: what it returns, with the object that owns it. *)
Definition get_settings (p : py) : option (dict * keeper) :=
  match py_holder p with
  | Some (Some d) => Some (d, KeepHolder)
  | Some None => None                                                                          (* GetObject() throws *)
  | None => match py_model p with Some (d, _) => Some (d, KeepModel) | None => None end
  end.
Definition set_settings (p : py) (d : dict) : py :=
  match py_holder p with
  | Some (Some _) => Py (py_alive p) (Some (Some d)) (py_model p) (py_settings p) (py_info p) (py_elements p) (py_files p)
  | _ => match py_model p with
         | Some (_, s) => Py (py_alive p) (py_holder p) (Some (d, s)) (py_settings p) (py_info p) (py_elements p) (py_files p)
         | None => p
         end
  end.
(** Run, PyQuESo.py:33-38, with EmbeddedModel(holder), add_containers_to_python.cpp:274-276: Release() takes the settings out of the
    holder; if they are rejected, then they are destroyed. *)
Definition run_object (p : py) : py * reply answer :=
  match py_holder p with
  | None | Some None => (p, Throw)
  | Some (Some d) =>
      match create_model w d (py_files p) with
      | Ok s0 => let '(s, r) := create_all w d s0 in
                 (Py (py_alive p) None (Some (d, s)) (py_settings p) (py_info p) (py_elements p) (py_files p),
                  match r with Return _ => Return Nothing | Throw => Throw | Stop => Stop end)
      | Error => (Py (py_alive p) (Some None) (py_model p) (py_settings p) (py_info p) (py_elements p) (py_files p), Throw)
      | _ => (p, Stop)
      end
  end.
Definition do_statement (p : py) (c : statement) : py * reply answer :=
  let 'Py alive holder model settings info elements files := p in
  match c with
  | Run => if alive then run_object p else (p, Throw)
  | TakeSettings =>
      if alive then match get_settings p with
                    | Some (d, k) => (Py alive holder model (Some (match settings with Some k => k | None => k end)) info elements files, Return (Settings d)) (* type_caster_base.h:524 *)
                    | None => (p, Throw)
                    end
      else (p, Throw)
  | ReadSettings => match settings with
                    | Some _ => (p, match settings_alive p with Some d => Return (Settings d) | None => Stop end)
                    | None => (p, Throw)
                    end
  | DropSettings => (Py alive holder model None info elements files, Return Nothing)
  | Change op => if alive then match get_settings p with
                               | Some (d, _) => (set_settings p (DictModel.run of_int d [op]), Return Nothing)
                               | None => (p, Throw)
                               end
                 else (p, Throw)
  | TakeInfo => if alive then match model with
                              | Some (_, s) => (Py alive holder model settings true elements files, Return (Info (st_info s)))
                              | None => (p, Throw)
                              end
                else (p, Throw)
  | ReadInfo => if info then (p, match model with Some (_, s) => if model_alive p then Return (Info (st_info s)) else Stop | None => Stop end) else (p, Throw)
  | DropInfo => (Py alive holder model settings false elements files, Return Nothing)
  | TakeElements => if alive then match model with
                                  | Some (_, s) => (Py alive holder model settings info true files, Return (Elements (st_elements s)))
                                  | None => (p, Throw)
                                  end
                    else (p, Throw)
  | ReadElements => if elements then (p, match model with Some (_, s) => if model_alive p then Return (Elements (st_elements s)) else Stop | None => Stop end) else (p, Throw)
  | Points => if alive then match model with
                            | Some (_, s) => (p, match gather (st_elements s) with Some l => Return (PointList l) | None => Throw end)
                            | None => (p, Throw)
                            end
              else (p, Throw)
  | Delete => (Py false holder model settings info elements files, Return Nothing)
  end.
(** A program; exceptions are caught; None: the program has ended. *)
Fixpoint execute (l : list statement) (p : py) : option (py * list (reply answer)) :=
  match l with
  | [] => Some (p, [])
  | c :: l => match do_statement p c with
              | (_, Stop) => None
              | (p, r) => match execute l p with Some (p, rs) => Some (p, r :: rs) | None => None end
              end
  end.
End PyQueso.

Arguments Py {D} py_alive py_holder py_model py_settings py_info py_elements py_files.
Arguments py_alive {D} p. Arguments py_holder {D} p. Arguments py_model {D} p. Arguments py_settings {D} p. Arguments py_info {D} p. Arguments py_elements {D} p. Arguments py_files {D} p.
Arguments general_bool {D} d n. Arguments general_text {D} d n. Arguments new_object {D} cwd d fs. Arguments new {D} w of_int to_float cwd fs json.
Arguments trimmed_points {D} positive l. Arguments gather {D} positive l. Arguments Run {D}. Arguments TakeSettings {D}. Arguments ReadSettings {D}. Arguments DropSettings {D}.
Arguments Change {D} op. Arguments TakeInfo {D}. Arguments ReadInfo {D}. Arguments DropInfo {D}. Arguments TakeElements {D}. Arguments ReadElements {D}. Arguments Points {D}. Arguments Delete {D}.
Arguments Nothing {D}. Arguments Settings {D} d. Arguments Info {D} d. Arguments Elements {D} l. Arguments PointList {D} l.
Arguments model_alive {D} p. Arguments holder_alive {D} p. Arguments settings_alive {D} p. Arguments get_settings {D} p. Arguments set_settings {D} p d.
Arguments run_object {D} w p. Arguments do_statement {D} w of_int positive p c. Arguments execute {D} w of_int positive l p.
