(** Model of the methods of SimulatorSetup (src/aspsim/simulator.py 59-154) that fill its array collection, and of the
    constructors of the arrays they make.  An exception does not undo what a method did before; the caller may catch it. *)
Require Import Verif.PyBase Verif.ConfigModel Verif.ArrayModel.
Set Implicit Arguments.

Section Script.
Context {E : AEnv}.
Notation arr := (arr Pos Src).
Notation coll := (coll E).
(** pos.shape[0] of a position, source.num_channels of a source *)
Variables (rows : Pos -> Z) (channels : Src -> Z).

(** the argument pos: an ndarray (lists of arrays are concatenated, see ArrayInitModel) or a trajectory *)
Inductive position_arg := Still (p : Pos) | Moving (at_time : Z -> Pos).

(** array.py 464-538 (Array.__init__, without groups and metadata; checks of the arguments are in ArrayInitModel), 579-580
    (MicArray), 632-633 (ControllableSourceArray).  [dirs] is the argument directivity_type, already checked. *)
Definition new_array (k : kind) (name : string) (pos : position_arg) (dirs : option (list string)) (source : option Src) : arr :=
  let p := match pos with Still p => p | Moving tr => tr 0 end in
  mkArr name k (rows p) p (match pos with Still _ => None | Moving tr => Some tr end)
        (match dirs with Some d => d | None => zrep (rows p) "omni"%string end) source [] [].
(** array.py 655-659 and 668-670 (FreeSourceArray.__init__, set_source) *)
Definition new_free_source (name : string) (pos : position_arg) (source : Src) : res arr :=
  let a := new_array KFree name pos None (Some source) in
  _ <- passert (channels source =? a_num a) ;; Ok a.

(** the calls a script makes *)
Inductive call :=
| AddArray (a : arr)
| AddArrays (c2 : coll)
| AddFreeSource (name : string) (pos : position_arg) (source : Src)
| AddControllableSource (name : string) (pos : position_arg)
| AddMics (name : string) (pos : position_arg) (dirs : option (list string))
| SetPath (src_name mic_name : string) (p : path V)
| SetSource (name : string) (source : Src).

(** a loop whose body may raise; the collection keeps what was done *)
Fixpoint each {A} (f : coll -> A -> coll * res unit) (c : coll) (l : list A) : coll * res unit :=
  match l with
  | [] => (c, Ok tt)
  | x :: r => match f c x with (c', Ok _) => each f c' r | (c', Err e) => (c', Err e) end
  end.
(** a call that changes nothing if it raises *)
Definition whole (c : coll) (r : res coll) : coll * res unit :=
  match r with Ok c' => (c', Ok tt) | Err e => (c, Err e) end.

(** simulator.py 59-68 (add_arrays), with array.py 202-218 (set_path_types) *)
Definition do_add_arrays (c c2 : coll) : coll * res unit :=
  match each (fun c kv => add_array c (snd kv)) c (c_arrays c2) with
  | (c', Ok _) => each (fun c sp => each (fun c mp => whole c (set_path_type c (fst sp) (fst mp) (snd mp))) c (snd sp)) c' (c_ptypes c2)
  | (c', Err e) => (c', Err e)
  end.
(** simulator.py 141-154 (set_source), array.py 53-54 and 668-670; other arrays have no method set_source *)
Definition do_set_source (c : coll) (name : string) (source : Src) : res coll :=
  a <- dgetE (c_arrays c) name ;;
  if is_free a then
    _ <- passert (channels source =? a_num a) ;;
    Ok (set_arrays c (dset (c_arrays c) name
      (mkArr (a_name a) (a_kind a) (a_num a) (a_pos a) (a_traj a) (a_dirs a) (Some source) (a_time_all a) (a_pos_all a))))
  else Err AttributeError.

(** simulator.py 73-82 (add_array), 84-99 (add_free_source), 101-112 (add_controllable_source), 114-125 (add_mics),
    127-139 (set_path), 141-154 (set_source) *)
Definition do_call (c : coll) (x : call) : coll * res unit :=
  match x with
  | AddArray a => add_array c a
  | AddArrays c2 => do_add_arrays c c2
  | AddFreeSource name pos source =>
    match new_free_source name pos source with Ok a => add_array c a | Err e => (c, Err e) end
  | AddControllableSource name pos => add_array c (new_array KCtrl name pos None None)
  | AddMics name pos dirs => add_array c (new_array KMic name pos dirs None)
  | SetPath s m p => whole c (set_prop_path c p s m)
  | SetSource name source => whole c (do_set_source c name source)
  end.

(** a script: its calls one after the other, exceptions are caught; the outcomes are listed *)
Fixpoint run_script (c : coll) (l : list call) : coll * list (res unit) :=
  match l with
  | [] => (c, [])
  | x :: r => let '(c1, o) := do_call c x in let '(c2, os) := run_script c1 r in (c2, o :: os)
  end.

(** simulator.py 183-198 without sessions (create_simulator): the arrays of the simulator; deepcopy is the identity here *)
Definition finish_arrays (i : info) (c : coll) : res coll :=
  _ <- passert (negb (match c_arrays c with [] => true | _ => false end)) ;;
  c1 <- set_default_path_type c (reverb i) ;;
  setup_ir c1 i.
End Script.
Arguments Still {E}. Arguments Moving {E}.
