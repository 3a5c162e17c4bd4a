(** Vocabulary for statements about array collections. *)
Require Import Verif.PyBase Verif.ConfigModel Verif.ArrayModel.
Set Implicit Arguments.

Section Spec.
Context {E : AEnv}.
Notation arr := (arr Pos Src).

(** entry d[s][m] of a two-layer dictionary *)
Definition lookup2 {A} (d : dict (dict A)) (s m : string) : option A :=
  match dget d s with Some x => dget x m | None => None end.

(** A consistent collection: names are the keys of the dictionary and unique, the three name lists
    enumerate the arrays of their class in insertion order, every source has an (initially empty)
    dictionary of paths and path types. *)
Record coll_ok (c : coll E) : Prop := {
  ok_names : NoDup (dkeys (c_arrays c));
  ok_key : forall k a, dget (c_arrays c) k = Some a -> a_name a = k;
  ok_mic : c_mic c = map fst (filter (fun kv => is_mic (snd kv)) (c_arrays c));
  ok_src : c_src c = map fst (filter (fun kv => is_source (snd kv)) (c_arrays c));
  ok_free : c_free c = map fst (filter (fun kv => is_free (snd kv)) (c_arrays c));
  ok_paths : forall s, In s (c_src c) -> exists d, dget (c_paths c) s = Some d;
  ok_types : forall s, In s (c_src c) -> exists d, dget (c_ptypes c) s = Some d
}.

(** a history of successful add_array calls on an empty collection *)
Definition add_all (c : coll E) (l : list arr) : res (coll E) :=
  foldM (fun c a => match add_array c a with (c', Ok _) => Ok c' | (_, Err e) => Err e end) c l.

(** the array named k of the collection *)
Definition the_array (c : coll E) (k : string) (a : arr) : Prop := dget (c_arrays c) k = Some a.

(** no array moves *)
Definition stationary (c : coll E) : Prop := forall k a, the_array c k a -> a_traj a = None.

(** every path has one row per source and one column per microphone *)
Definition shaped (c : coll E) : Prop := forall s m p a b,
  lookup2 (c_paths c) s m = Some p -> In s (c_src c) -> In m (c_mic c) ->
  the_array c s a -> the_array c m b -> p_ns p = a_num a /\ p_nm p = a_num b.

(** [rows p] is the number of points of a position argument.  The generators return one row per
    source and one column per microphone; the high-pass filter keeps the shape. *)
Definition generators_shaped (rows : Pos -> Z) : Prop :=
  (forall par g s m g' p, ism3d par g s m = Ok (g', p) -> p_ns p = rows s /\ p_nm p = rows m) /\
  (forall p sr f, p_ns (filter_rirs p sr f) = p_ns p /\ p_nm (filter_rirs p sr f) = p_nm p).
(** an array has as many elements as its position has points, wherever it moves *)
Definition sized (rows : Pos -> Z) (a : arr) : Prop :=
  rows (a_pos a) = a_num a /\ forall tr, a_traj a = Some tr -> forall t, rows (tr t) = a_num a.

(** Every collection that can be reached from an empty one by successful calls, in any order, adding
    only arrays with the property Q. *)
Inductive built (Q : arr -> Prop) : coll E -> Prop :=
| built_empty g : built Q (empty_coll g)
| built_add c a c' u : built Q c -> Q a -> add_array c a = (c', Ok u) -> built Q c'
| built_path c p s m c' : built Q c -> set_prop_path c p s m = Ok c' -> built Q c'
| built_type c t s m c' : built Q c -> set_path_type c s m t = Ok c' -> built Q c'
| built_default c t c' : built Q c -> set_default_path_type c t = Ok c' -> built Q c'
| built_setup c i c' : built Q c -> setup_ir c i = Ok c' -> built Q c'
| built_update c g c' : built Q c -> update c g = Ok c' -> built Q c'.

(** the type a pair ends up with: a given path wins, then a given type, then the default *)
Definition resolved (pt : string) (c : coll E) (s m : string) : string :=
  match lookup2 (c_paths c) s m with
  | Some _ => "modified"%string
  | None => match lookup2 (c_ptypes c) s m with Some t => t | None => pt end
  end.

(** the names of a list of pairs *)
Definition pair_names (l : list (arr * arr)) : list (string * string) :=
  map (fun sm => (a_name (fst sm), a_name (snd sm))) l.

(** the path of a pair before filtering: zeros, identity, noise or an image source simulation *)
Inductive raw_path (i : info) (g : G) (src mic : arr) : string -> G -> path V -> Prop :=
| raw_none p : p_ns p = a_num src -> p_nm p = a_num mic -> p_len p = 1 ->
    (forall s m k, p_at p s m k = v0) -> raw_path i g src mic "none" g p
| raw_direct p : a_num src = a_num mic -> p_ns p = a_num src -> p_nm p = a_num mic -> p_len p = 1 ->
    (forall s m, p_at p s m 0 = if s =? m then v1 else v0) -> raw_path i g src mic "direct" g p
| raw_random p g' draw : np_normal g (a_num src) (a_num mic) (max_room_ir_length i) = (g', draw) ->
    p_ns p = a_num src -> p_nm p = a_num mic -> p_len p = max_room_ir_length i ->
    (forall s m k, p_at p s m k = draw s m k) -> raw_path i g src mic "random" g' p
| raw_ism p g' : spatial_dims i = 3 -> (forall d, In d (a_dirs mic) -> d = "omni"%string) ->
    ism3d (rir_params i) g (a_pos src) (a_pos mic) = Ok (g', p) -> raw_path i g src mic "ism" g' p.
(** high-pass filtered when a cutoff is configured *)
Definition made_path (i : info) (g : G) (src mic : arr) (t : string) (g' : G) (p : path V) : Prop :=
  exists q, raw_path i g src mic t g' q /\
    p = if 0 <? highpass_cutoff i then filter_rirs q (samplerate i) (highpass_cutoff i) else q.

(** regenerate the paths of the listed pairs, one after the other, from the positions the two arrays
    have and the pair's type; the random generator is handed from one to the next *)
Fixpoint regenerate (i : info) (types : dict (dict string)) (l : list (arr * arr))
    (paths : string -> string -> option (path V)) (g : G) : res ((string -> string -> option (path V)) * G) :=
  match l with
  | [] => Ok (paths, g)
  | (s, m) :: r =>
    match lookup2 types (a_name s) (a_name m) with
    | None => Err KeyError
    | Some t =>
      gp <- create_path i g s m t ;;
      regenerate i types r
        (fun s' m' => if String.eqb s' (a_name s) && String.eqb m' (a_name m) then Some (snd gp) else paths s' m') (fst gp)
    end
  end.
End Spec.
