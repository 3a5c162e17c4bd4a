(** Model of src/aspsim/saveloadsession.py, of the comparison of array collections in array.py and of
    SimulatorSetup.create_simulator in simulator.py. *)
Require Import Verif.PyBase Verif.ConfigModel Verif.ArrayModel Verif.FileModel.
Set Implicit Arguments.
Local Open Scope string_scope.
Local Open Scope list_scope.
Local Open Scope Z_scope.

(** A file that does not exist, one whose writing has begun but is not complete, or a complete one with its content *)
Inductive file (A : Type) := Missing | Partial | Full (x : A).
Arguments Missing {A}.
Arguments Partial {A}.

Section Sessions.
Context {E : AEnv}.
Notation arr := (arr Pos Src).
Notation coll := (coll E).
(** np.allclose on positions (ValueError if the shapes do not fit) and np.isclose on two numbers *)
Context (pos_close : Pos -> Pos -> res bool) (vclose : V -> V -> bool).

(** An entry of the sessions folder: a file, or a folder with config.yaml and arrays.pickle.  metadata_sim.json is never written, because
    setup_ir returns None (simulator.py 195-196, array.py 234-261). *)
Inductive entry := EFile | EDir (config : file info) (arrays : file coll).
(** in the order of iterdir *)
Definition sessions := dict entry.

(** configutil.py 48-54 (load_from_file) on a session folder: a missing file is an error of open; an incomplete YAML file lacks some of
    the arguments of SimulatorInfo *)
Definition load_config (f : file info) : res info :=
  match f with Missing => Err FileNotFoundError | Partial => Err TypeError | Full i => info_post_init i end.
(** array.py 407-419 (load_arrays); unpickling yields an equal collection *)
Definition load_arrays (f : file coll) : res coll :=
  match f with Missing => Err FileNotFoundError | Partial => Err EOFError | Full c => Ok c end.

(** numpy broadcasting of one axis, and the index used on an axis *)
Definition bcast (a b : Z) : res Z := if a =? b then Ok a else if a =? 1 then Ok b else if b =? 1 then Ok a else Err ValueError.
Definition bidx (n i : Z) : Z := if n =? 1 then 0 else i.
(** np.allclose on two paths *)
Definition allclose_path (p q : path V) : res bool :=
  n1 <- bcast (p_ns p) (p_ns q) ;; n2 <- bcast (p_nm p) (p_nm q) ;; n3 <- bcast (p_len p) (p_len q) ;;
  Ok (forallb (fun i => forallb (fun j => forallb (fun k =>
        vclose (p_at p (bidx (p_ns p) i) (bidx (p_nm p) j) (bidx (p_len p) k)) (p_at q (bidx (p_ns q) i) (bidx (p_nm q) j) (bidx (p_len q) k)))
      (zrange 0 n3)) (zrange 0 n2)) (zrange 0 n1)).

(** a loop that returns False at the first failed test *)
Fixpoint all_true {A} (f : A -> res bool) (l : list A) : res bool :=
  match l with [] => Ok true | x :: r => b <- f x ;; if b then all_true f r else Ok false end.
(** equality of the keys of two dictionaries (as sets) *)
Definition same_keys {A B} (a : dict A) (b : dict B) : bool :=
  forallb (fun k => smem k (dkeys b)) (dkeys a) && forallb (fun k => smem k (dkeys a)) (dkeys b).
(** array.py 440-448: one array *)
Definition same_array (initialized : coll) (kv : string * arr) : res bool :=
  b <- dgetE (c_arrays initialized) (fst kv) ;;
  if negb (kind_eqb (a_kind (snd kv)) (a_kind b)) then Ok false
  else if negb (a_num (snd kv) =? a_num b) then Ok false
  else pos_close (a_pos (snd kv)) (a_pos b).
(** array.py 451-456: one pair of source and microphone *)
Definition same_path_type (prototype initialized : coll) (sm : arr * arr) : res bool :=
  let s := a_name (fst sm) in let m := a_name (snd sm) in
  t <- dget2E (c_ptypes prototype) s m ;;
  ok <- (if String.eqb t "modified" then
           p <- dget2E (c_paths prototype) s m ;; q <- dget2E (c_paths initialized) s m ;; allclose_path p q
         else Ok true) ;;
  if negb ok then Ok false else
  t' <- dget2E (c_ptypes initialized) s m ;; Ok (String.eqb t t').
(** array.py 421-458 (prototype_equals) *)
Definition prototype_equals (prototype initialized : coll) : res bool :=
  if negb (same_keys (c_arrays prototype) (c_arrays initialized)) then Ok false else
  ok <- all_true (same_array initialized) (c_arrays prototype) ;;
  if negb ok then Ok false else
  cs <- mic_src_combos prototype ;;
  all_true (same_path_type prototype initialized) cs.

(** saveloadsession.py 52-56: the test of one folder *)
Definition session_matches (chosen_info : info) (chosen : coll) (config : file info) (arrays : file coll) : res bool :=
  loaded_info <- load_config config ;;
  loaded <- load_arrays arrays ;;
  if equal_audio chosen_info loaded_info (c_ptypes chosen) then prototype_equals chosen loaded else Ok false.
(** saveloadsession.py 49-58 (search_for_matching_session) *)
Fixpoint search (folder : sessions) (chosen_info : info) (chosen : coll) : res string :=
  match folder with
  | [] => Err MatchingSessionNotFoundError
  | (n, EFile) :: r => search r chosen_info chosen
  | (n, EDir config arrays) :: r =>
      b <- session_matches chosen_info chosen config arrays ;;
      if b then Ok n else search r chosen_info chosen
  end.
(** the attribute source of an array *)
Definition with_source (a : arr) (s : option Src) : arr :=
  mkArr (a_name a) (a_kind a) (a_num a) (a_pos a) (a_traj a) (a_dirs a) s (a_time_all a) (a_pos_all a).
(** saveloadsession.py 19-30 (load_session).  The random state is the one of the process. *)
Definition load_session (folder : sessions) (chosen_info : info) (chosen : coll) : res coll :=
  n <- search folder chosen_info chosen ;;
  e <- dgetE folder n ;;
  loaded <- match e with EFile => Err FileNotFoundError | EDir _ arrays => load_arrays arrays end ;;
  fs <- free_sources chosen ;;
  loaded <- foldM (fun loaded fs =>
    a <- dgetE (c_arrays loaded) (a_name fs) ;;
    Ok (set_arrays loaded (dset (c_arrays loaded) (a_name fs) (with_source a (a_source fs))))) loaded fs ;;
  Ok (set_rng loaded (c_rng chosen)).

(** saveloadsession.py 10-17 (save_session) with sim_metadata None: the states of the sessions folder before and after every step; [time] is the
    time string of the folder name *)
Definition save_session (time : string) (folder : sessions) (i : info) (c : coll) : res (list sessions) :=
  n <- get_unique_folder_name "session_" time (dkeys folder) ;;
  Ok [folder; dset folder n (EDir Missing Missing);
      dset folder n (EDir Missing Partial); dset folder n (EDir Missing (Full c));
      dset folder n (EDir Partial (Full c)); dset folder n (EDir (Full i) (Full c))].

(** simulator.py 183-204 (create_simulator): the states of the sessions folder and the finished arrays.  The copy of the arrays is equal to them;
    figures and metadata are left out. *)
Definition create_simulator (time : string) (folder : option sessions) (i : info) (c : coll) : list sessions * res coll :=
  let states := match folder with Some f => [f] | None => [] end in
  match (_ <- passert (negb (match c_arrays c with [] => true | _ => false end)) ;; set_default_path_type c (reverb i)) with
  | Err e => (states, Err e)
  | Ok c1 =>
    match auto_save_load i, folder with
    | true, Some f =>
      match load_session f i c1 with
      | Ok l => (states, Ok l)
      | Err MatchingSessionNotFoundError =>
          match setup_ir c1 i with
          | Err e => (states, Err e)
          | Ok c2 => match save_session time f i c2 with Ok st => (st, Ok c2) | Err e => (states, Err e) end
          end
      | Err e => (states, Err e)
      end
    | _, _ => (states, setup_ir c1 i)
    end
  end.

(** saveloadsession.py 32-46 (load_from_path, copy_sim_metadata).
    [new_folder]: a figure folder is given, into which the missing metadata_sim.json is copied *)
Definition load_from_path (e : entry) (new_folder : bool) : res (info * coll) :=
  match e with
  | EFile => Err FileNotFoundError
  | EDir config arrays =>
      c <- load_arrays arrays ;;
      i <- load_config config ;;
      if new_folder then Err FileNotFoundError else Ok (i, c)
  end.
End Sessions.
Arguments entry : clear implicits.
Arguments sessions : clear implicits.
Arguments EFile {E}.
