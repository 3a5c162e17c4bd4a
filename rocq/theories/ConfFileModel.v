(** Model of reading and writing configuration files (src/aspsim/configutil.py 6-59), with the values that YAML files and
    attributes can hold. *)
Require Import Verif.PyBase.
Set Implicit Arguments.
Local Open Scope string_scope.
Local Open Scope Z_scope.

(** Python values.  A float is the multiple of 2^-1074 that it is (no NaN, no infinity).  [PObj] stands for all other objects,
    such as numpy numbers and arrays.  Dictionaries have strings as keys. *)
Inductive pyval :=
| PNone | PInt (z : Z) | PFloat (f : Z) | PBool (b : bool) | PStr (s : string)
| PList (l : list pyval) | PTuple (l : list pyval) | PDict (d : list (string * pyval)) | PObj.

(** configutil.py 8-32: the fields of the dataclass, in order *)
Definition fields : list string :=
  ["tot_samples"; "sim_buffer"; "sim_chunk_size"; "start_sources_before_0"; "save_source_contributions"; "array_update_freq";
   "samplerate"; "c"; "spatial_dims"; "reverb"; "room_size"; "room_center"; "rt60"; "max_room_ir_length"; "randomized_ism";
   "extra_delay"; "highpass_cutoff"; "export_frequency"; "plot_output"; "output_smoothing"; "auto_save_load"].
(** A SimulatorInfo object: the value of each field, in the order of the fields.  Attributes can be set to any value later. *)
Definition config := dict pyval.

(** len *)
Definition py_len (v : pyval) : res Z :=
  match v with
  | PList l | PTuple l => Ok (zlen l)
  | PStr s => Ok (Z.of_nat (String.length s))
  | PDict d => Ok (zlen d)
  | _ => Err TypeError
  end.
(** == of an integer and a value; an object is taken to be different *)
Definition int_eq (n : Z) (v : pyval) : bool :=
  match v with
  | PInt z => n =? z
  | PFloat f => n * 2 ^ 1074 =? f
  | PBool b => n =? (if b then 1 else 0)
  | _ => false
  end.
(** configutil.py 35-40: __post_init__ *)
Definition post_init (o : config) : res config :=
  rs <- dgetE o "room_size" ;; n <- py_len rs ;; sd <- dgetE o "spatial_dims" ;; _ <- passert (int_eq n sd) ;;
  rc <- dgetE o "room_center" ;; n <- py_len rc ;; sd <- dgetE o "spatial_dims" ;; _ <- passert (int_eq n sd) ;;
  rv <- dgetE o "reverb" ;; _ <- passert (match rv with PStr s => smem s ["none"; "direct"; "ism"] | _ => false end) ;;
  Ok o.
(** SimulatorInfo called with keyword arguments only: unknown and missing arguments are errors *)
Definition make_info (d : dict pyval) : res config :=
  if existsb (fun k => negb (smem k fields)) (dkeys d) then Err TypeError
  else if existsb (fun k => negb (dmem d k)) fields then Err TypeError
  else o <- mapM (fun k => v <- dgetE d k ;; Ok (k, v)) fields ;; post_init o.

Section Files.
(** The content of a file, and yaml.dump and yaml.safe_load on it *)
Variable Text : Type.
Variable dump : dict pyval -> Text.
Variable safe_load : Text -> res pyval.
(** A folder or a file with its content, by path.  Two paths name the same file only if they are equal. *)
Inductive node := Folder | File (t : Text).
Definition files := dict node.
(** pathlib's joinpath *)
Definition join (p name : string) : string := (p ++ "/" ++ name)%string.
(** The argument path: a string or a Path *)
Inductive path_arg := AsStr (p : string) | AsPath (p : string).

(** configutil.py 48-54: load_from_file.  A string has no method is_dir.  A file that cannot be opened is missing.  [**config]
    needs a dictionary. *)
Definition load_from_file (fs : files) (path : path_arg) : res config :=
  match path with
  | AsStr _ => Err AttributeError
  | AsPath p =>
    let p := match dget fs p with Some Folder => join p "config.yaml" | _ => p end in
    match dget fs p with
    | Some (File t) =>
      config <- safe_load t ;;
      match config with PDict d => make_info d | _ => Err TypeError end
    | _ => Err FileNotFoundError
    end
  end.
(** configutil.py 43-46: save_to_file, for a Path or None.  dataclasses.asdict copies all values.  A file can be created only in
    a folder that exists.  Here and in load_from_file, the errors that have to do with files where folders are expected and
    the other way round are not told apart from FileNotFoundError, and no folder is called config.yaml when saving. *)
Definition save_to_file (fs : files) (o : config) (path : option string) : res files :=
  match path with
  | None => Ok fs
  | Some p => match dget fs p with Some Folder => Ok (dset fs (join p "config.yaml") (File (dump o))) | _ => Err FileNotFoundError end
  end.
(** configutil.py 57-59 (load_default_config): [package] is the folder of configutil.py *)
Definition load_default_config (fs : files) (package : string) : res config := load_from_file fs (AsPath (join package "config.yaml")).
(** simulator.py 43-46: the configuration of a new SimulatorSetup *)
Definition setup_config (fs : files) (package : string) (config_path : option path_arg) : res config :=
  match config_path with None => load_default_config fs package | Some p => load_from_file fs p end.

(** saveloadsession.py 48-58 (search_for_matching_session): the folders among the entries are looked at one after the other.
    [fits] stands for loading the arrays of a folder and comparing everything with what is wanted (lines 53-56; see SessionModel). *)
Fixpoint search_sessions (fs : files) (fits : string -> config -> res bool) (entries : list string) : res string :=
  match entries with
  | [] => Err MatchingSessionNotFoundError
  | p :: r =>
    match dget fs p with
    | Some Folder => o <- load_from_file fs (AsPath p) ;; b <- fits p o ;; if b then Ok p else search_sessions fs fits r
    | _ => search_sessions fs fits r
    end
  end.
End Files.
Arguments Folder {Text}.

(** config.yaml (the file in the package), 1-32, as a dictionary; 2^1073 is one half *)
Definition default_values : dict pyval :=
  [("tot_samples", PInt 2000); ("sim_buffer", PInt 2000); ("sim_chunk_size", PInt 2000); ("start_sources_before_0", PBool false);
   ("save_source_contributions", PBool false); ("array_update_freq", PInt 1); ("samplerate", PInt 2000); ("c", PFloat (343 * 2 ^ 1074));
   ("spatial_dims", PInt 3); ("reverb", PStr "ism"); ("room_size", PList [PInt 7; PInt 5; PFloat (5 * 2 ^ 1073)]);
   ("room_center", PList [PInt (-1); PInt 0; PInt 0]); ("rt60", PFloat (8106479329266893 * 2 ^ 1020)); ("max_room_ir_length", PInt 500);
   ("randomized_ism", PBool false); ("extra_delay", PInt 0); ("highpass_cutoff", PFloat 0); ("export_frequency", PInt 1000);
   ("plot_output", PStr "pdf"); ("output_smoothing", PInt 1); ("auto_save_load", PBool true)].
