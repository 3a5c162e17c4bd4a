(** Model of object sharing between SimulatorSetup and the simulators it makes (simulator.py), of the folders and metadata files
    (simulator.py 206-217, saveloadsession.py 62-82, array.py 63-94) and of fileutilities.get_time_string. *)
Require Import Verif.PyBase Verif.PyStr Verif.ConfigModel Verif.FileModel.
Set Implicit Arguments.
Local Open Scope string_scope.
Local Open Scope list_scope.
Local Open Scope Z_scope.

(* ------------------------------------------------------------------ objects *)
Section Objects.
(** source objects, frames of samples, source.get_samples(n) with the changed object, and array collections without their sources *)
Context {Src X Coll : Type} (get_samples : Src -> Z -> Src * list X).
(** The mutable objects: a location is an index.  Configurations are changed by the user through setup.sim_info, sources by get_samples. *)
Record heap := mkHeap { h_src : list Src; h_info : list info }.
(** the free source arrays of a collection in order: name and location of the source *)
Definition sources := list (string * Z).
(** simulator.py 13-56: SimulatorSetup; the random generator is left out (Simulator keeps the same object but does not use it) *)
Record setup := mkSetup { s_info : Z; s_coll : Coll; s_sources : sources }.
(** simulator.py 220-239: Simulator *)
Record simulator := mkSimulator { m_info : Z; m_coll : Coll; m_sources : sources }.

(** the location of the copy of [loc] in the memo of copy.deepcopy *)
Definition memo_get (memo : list (Z * Z)) (loc : Z) : option Z :=
  match find (fun kv => fst kv =? loc) memo with Some kv => Some (snd kv) | None => None end.
(** copy.deepcopy of the sources of a collection (simulator.py 184): each source object is copied once *)
Definition copy_source (acc : list Src * list (Z * Z) * sources) (nl : string * Z) : res (list Src * list (Z * Z) * sources) :=
  let '(srcs, memo, done) := acc in
  match memo_get memo (snd nl) with
  | Some l => Ok (srcs, memo, done ++ [(fst nl, l)])
  | None => match zget srcs (snd nl) with
            | None => Err AttributeError
            | Some x => Ok (srcs ++ [x], memo ++ [(snd nl, zlen srcs)], done ++ [(fst nl, zlen srcs)])
            end
  end.
Definition deepcopy_sources (srcs : list Src) (s : sources) : res (list Src * sources) :=
  r <- foldM copy_source (srcs, [], []) s ;;
  let '(srcs, _, done) := r in Ok (srcs, done).

(** simulator.py 166-204 (create_simulator): [finish] is what happens to the copied collection (default path types, impulse
    responses or a stored session, see SessionModel.create_simulator).  The simulator gets the same sim_info object. *)
Definition create_simulator (finish : info -> Coll -> res Coll) (h : heap) (s : setup) : res (heap * simulator) :=
  i <- match zget (h_info h) (s_info s) with Some i => Ok i | None => Err AttributeError end ;;
  cp <- deepcopy_sources (h_src h) (s_sources s) ;;
  c <- finish i (s_coll s) ;;
  Ok (mkHeap (fst cp) (h_info h), mkSimulator (s_info s) c (snd cp)).
(** setup.sim_info.attribute = value *)
Definition change_config (f : info -> info) (h : heap) (s : setup) : res heap :=
  match zget (h_info h) (s_info s) with
  | None => Err AttributeError
  | Some i => infos <- pyslice_set (h_info h) (s_info s) (s_info s + 1) [f i] ;; Ok (mkHeap (h_src h) infos)
  end.

(** list item assignment *)
Definition replace (l : list Src) (i : Z) (x : Src) : list Src := pyslice l 0 i ++ [x] ++ pyslice l (i + 1) (zlen l).
(** simulator.py 434-435, 464-465: the loop over the free sources with n samples each; what each array gets *)
Definition play_round (srcs : list Src) (s : sources) (n : Z) : res (list Src * list (string * list X)) :=
  foldM (fun acc nl =>
    match zget (fst acc) (snd nl) with
    | None => Err AttributeError
    | Some x => let '(x', out) := get_samples x n in Ok (replace (fst acc) (snd nl) x', snd acc ++ [(fst nl, out)])
    end) (srcs, []) s.
Definition play_rounds (srcs : list Src) (s : sources) (ns : list Z) : res (list Src * list (list (string * list X))) :=
  foldM (fun acc n => r <- play_round (fst acc) s n ;; Ok (fst r, snd acc ++ [snd r])) (srcs, []) ns.
(** the numbers of samples requested in a run: simulator.py 424-435 (prepare) and 293, 464 (one for each sample) *)
Definition requests (i : info) (max_block_size : Z) : list Z :=
  (if start_sources_before_0 i then sim_buffer i else 1) :: zrep (tot_samples i + max_block_size) 1.
(** what the sources of a simulator play during run_simulation *)
Definition play (h : heap) (m : simulator) (max_block_size : Z) : res (heap * list (list (string * list X))) :=
  i <- match zget (h_info h) (m_info m) with Some i => Ok i | None => Err AttributeError end ;;
  r <- play_rounds (h_src h) (m_sources m) (requests i max_block_size) ;;
  Ok (mkHeap (fst r) (h_info h), snd r).
End Objects.

(* ------------------------------------------------------------------ folders and files *)
(** base_fig_path: None, a str, or a Path with the entries of the folder (None: it does not exist) *)
Inductive base_folder := NoBase | StrBase | PathBase (dir : option (list string)).
(** simulator.py 206-217 (_create_fig_folder) with gen_subfolder=True, the default, which is always used; [time] is what get_time_string
    returned.  The base folder after the call and the name of the new folder.  A str has no method joinpath. *)
Definition create_fig_folder (plot_output time : string) (base : base_folder) : res (base_folder * option string) :=
  if String.eqb plot_output "none" then Ok (base, None)
  else match base with
  | NoBase => Ok (base, None)
  | StrBase => Err AttributeError
  | PathBase dir =>
      name <- get_unique_folder_name "figs_" time (match dir with Some d => d | None => [] end) ;;
      match dir with
      | None => Err FileNotFoundError
      | Some d => Ok (PathBase (Some (d ++ [name])), Some name)
      end
  end.

Section Metadata.
Context {J : Type}.
(** metadata_sim.json: it does not exist, its writing has begun, or it holds a dictionary *)
Inductive json_file := NoFile | Begun | Holds (d : dict J).
(** {**old, **new} *)
Definition merge (old new : dict J) : dict J := fold_left (fun d kv => dset d (fst kv) (snd kv)) new old.
(** saveloadsession.py 62-70 (add_to_sim_metadata): the states of the file between the operations, and the outcome; json.load raises a
    ValueError (JSONDecodeError) for an incomplete file *)
Definition add_to_sim_metadata (f : json_file) (dict_to_add : dict J) : list json_file * res unit :=
  match f with
  | Begun => ([Begun], Err ValueError)
  | NoFile => ([NoFile; Begun; Holds dict_to_add], Ok tt)
  | Holds old => ([Holds old; Begun; Holds (merge old dict_to_add)], Ok tt)
  end.
(** diagnosticsummary.py 8-19 (add_to_summary): the same with a single key *)
Definition add_to_summary (f : json_file) (diag_name : string) (values : J) : list json_file * res unit :=
  match f with
  | Begun => ([Begun], Err ValueError)
  | NoFile => ([NoFile; Begun; Holds [(diag_name, values)]], Ok tt)
  | Holds old => ([Holds old; Begun; Holds (dset old diag_name values)], Ok tt)
  end.
(** saveloadsession.py 73-82 (write_processor_metadata): [processors] are names and metadata *)
Definition write_processor_metadata (processors : list (string * J)) : dict J :=
  fold_left (fun d kv => dset d (fst kv) (snd kv)) processors [].
End Metadata.
Arguments json_file : clear implicits.

(* ------------------------------------------------------------------ time strings *)
(** datetime.datetime.now() *)
Record datetime := mkTime { year : Z; month : Z; day : Z; hour : Z; minute : Z; second : Z; microsecond : Z }.
(** str.zfill(2) on digits *)
Definition zfill2 (s : string) : string := if (slen s <? 2)%Z then (if (slen s =? 0)%Z then "00" else ("0" ++ s)%string) else s.
(** fileutilities.py 6-23 (get_time_string) *)
Definition get_time_string (tm : datetime) (detailed : bool) : string :=
  let time_str := (py_str (year tm) ++ "_" ++ zfill2 (py_str (month tm)) ++ "_" ++ zfill2 (py_str (day tm)) ++ "_"
                   ++ zfill2 (py_str (hour tm)) ++ "_" ++ zfill2 (py_str (minute tm)))%string in
  if detailed then ((time_str ++ "_" ++ zfill2 (py_str (second tm))) ++ "_" ++ zfill2 (py_str (microsecond tm)))%string else time_str.
