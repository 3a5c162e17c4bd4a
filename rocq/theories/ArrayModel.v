(** Model of src/aspsim/array.py (array collections, path bookkeeping, updates) and of
    PathGenerator.create_path in src/aspsim/room/roomimpulseresponse.py. *)
Require Import Verif.PyBase Verif.ConfigModel.
Set Implicit Arguments.

(** An ndarray of shape (num_src, num_mic, num_samples): shape plus entries.
    Only entries inside the shape are meaningful. *)
Record path (V : Type) := mkPath {
  p_ns : Z; p_nm : Z; p_len : Z;
  p_at : Z -> Z -> Z -> V
}.

(** array.py 566-655: the concrete classes; [KOther] is a subclass of Array that is
    neither microphone nor source. *)
Inductive kind := KMic | KRegion | KCtrl | KFree | KOther.
Definition kind_eqb (a b : kind) : bool :=
  match a, b with
  | KMic, KMic | KRegion, KRegion | KCtrl, KCtrl | KFree, KFree | KOther, KOther => true
  | _, _ => false
  end.

(** array.py 460-538: state of an Array object. [a_traj] is the trajectory of a moving array
    (position at each time index), [None] for a stationary one; plotting data, groups and
    metadata are left out (groups are modelled separately). *)
Record arr (Pos Src : Type) := mkArr {
  a_name : string;
  a_kind : kind;
  a_num : Z;
  a_pos : Pos;
  a_traj : option (Z -> Pos);
  a_dirs : list string;               (* directivity_type; directivity_dir is never used *)
  a_source : option Src;              (* FreeSourceArray.source *)
  a_time_all : list Z;
  a_pos_all : list Pos
}.

(** The parameters that reach ir_room_image_source_3d: roomimpulseresponse.py 134-148 passes
    room_size, room_center, max_room_ir_length, samplerate, randomized_ism and (via 77-97) values
    computed from rt60 and room_size; c and extra_delay reach pyroomacoustics as global constants. *)
Record rirpar := mkRirpar {
  rp_room_size : list float_; rp_room_center : list float_; rp_len : Z; rp_sr : Z;
  rp_rt60 : float_; rp_random : bool; rp_c : float_; rp_extra_delay : Z }.
Definition rir_params (i : info) : rirpar :=
  mkRirpar (room_size i) (room_center i) (max_room_ir_length i) (samplerate i)
           (rt60 i) (randomized_ism i) (c_sound i) (extra_delay i).

(** Everything the array code takes from outside aspsim: sample values, positions,
    source objects, the global random state and the acoustic generators. *)
Class AEnv := mkAEnv {
  V : Type; v0 : V; v1 : V; vadd : V -> V -> V; vmul : V -> V -> V;
  Pos : Type;
  Src : Type;
  src_get : Src -> Z -> Src * list (list V);   (* source.get_samples(n): n frames *)
  G : Type;                                    (* global random state *)
  np_normal : G -> Z -> Z -> Z -> G * (Z -> Z -> Z -> V);
  ism3d : rirpar -> G -> Pos -> Pos -> res (G * path V);   (* source and microphone positions *)
  filter_rirs : path V -> Z -> float_ -> path V
}.

Section Arrays.
Context {E : AEnv}.
Notation arr := (arr Pos Src).
Notation path := (path V).

Definition is_mic (a : arr) : bool := match a_kind a with KMic | KRegion => true | _ => false end.
Definition is_source (a : arr) : bool := match a_kind a with KCtrl | KFree => true | _ => false end.
Definition is_free (a : arr) : bool := match a_kind a with KFree => true | _ => false end.
Definition dynamic (a : arr) : bool := match a_traj a with Some _ => true | None => false end.

(** array.py 39-51: ArrayCollection.  path_info (metadata for the json files) and the debugging
    list _rir_dynamic_all are left out.  [c_info] is the attribute sim_info, set by setup_ir;
    [c_rng] is the process-wide numpy random state used by "random" paths. *)
Record coll := mkColl {
  c_arrays : dict arr;
  c_mic : list string;
  c_src : list string;
  c_free : list string;
  c_paths : dict (dict path);
  c_ptypes : dict (dict string);
  c_info : option info;
  c_rng : G
}.

Definition empty_coll (g : G) : coll := mkColl [] [] [] [] [] [] None g.

Definition set_arrays (c : coll) (x : dict arr) : coll :=
  mkColl x (c_mic c) (c_src c) (c_free c) (c_paths c) (c_ptypes c) (c_info c) (c_rng c).
Definition set_paths (c : coll) (x : dict (dict path)) : coll :=
  mkColl (c_arrays c) (c_mic c) (c_src c) (c_free c) x (c_ptypes c) (c_info c) (c_rng c).
Definition set_ptypes (c : coll) (x : dict (dict string)) : coll :=
  mkColl (c_arrays c) (c_mic c) (c_src c) (c_free c) (c_paths c) x (c_info c) (c_rng c).
Definition set_info (c : coll) (i : info) : coll :=
  mkColl (c_arrays c) (c_mic c) (c_src c) (c_free c) (c_paths c) (c_ptypes c) (Some i) (c_rng c).
Definition set_rng (c : coll) (g : G) : coll :=
  mkColl (c_arrays c) (c_mic c) (c_src c) (c_free c) (c_paths c) (c_ptypes c) (c_info c) g.

(** two-layer dict assignment d[s][m] = x (KeyError when d has no s) *)
Definition dset2 {A} (d : dict (dict A)) (s m : string) (x : A) : res (dict (dict A)) :=
  inner <- dgetE d s ;; Ok (dset d s (dset inner m x)).
Definition dget2E {A} (d : dict (dict A)) (s m : string) : res A :=
  inner <- dgetE d s ;; dgetE inner m.

(** array.py 143-163: add_array.  Returns the collection after the call and the outcome:
    an exception does not undo the changes already made. *)
Definition add_array (c : coll) (a : arr) : coll * res unit :=
  if dmem (c_arrays c) (a_name a) then (c, Err AssertionError)
  else
    let arrays' := dset (c_arrays c) (a_name a) a in
    if is_mic a then
      (mkColl arrays' (c_mic c ++ [a_name a]) (c_src c) (c_free c) (c_paths c) (c_ptypes c)
              (c_info c) (c_rng c), Ok tt)
    else if is_source a then
      (mkColl arrays' (c_mic c) (c_src c ++ [a_name a])
              (if is_free a then c_free c ++ [a_name a] else c_free c)
              (dset (c_paths c) (a_name a) []) (dset (c_ptypes c) (a_name a) [])
              (c_info c) (c_rng c), Ok tt)
    else (set_arrays c arrays', Err ValueError).

(** array.py 131-135: mic_src_combos; 116-129: sources, mics, free_sources. *)
Definition lookup_all (c : coll) (names : list string) : res (list arr) :=
  mapM (fun n => dgetE (c_arrays c) n) names.
Definition sources (c : coll) : res (list arr) := lookup_all c (c_src c).
Definition mics (c : coll) : res (list arr) := lookup_all c (c_mic c).
Definition free_sources (c : coll) : res (list arr) := lookup_all c (c_free c).
Definition mic_src_combos (c : coll) : res (list (arr * arr)) :=
  mapM (fun sm => s <- dgetE (c_arrays c) (fst sm) ;; m <- dgetE (c_arrays c) (snd sm) ;; Ok (s, m))
       (list_prod (c_src c) (c_mic c)).

(** array.py 179-200: set_prop_path (ndim = 3 and ndarray by typing). *)
Definition set_prop_path (c : coll) (p : path) (src_name mic_name : string) : res coll :=
  _ <- passert (smem src_name (c_src c)) ;;
  _ <- passert (smem mic_name (c_mic c)) ;;
  s <- dgetE (c_arrays c) src_name ;;
  _ <- passert (p_ns p =? a_num s) ;;
  m <- dgetE (c_arrays c) mic_name ;;
  _ <- passert (p_nm p =? a_num m) ;;
  ps <- dset2 (c_paths c) src_name mic_name p ;;
  Ok (set_paths c ps).

(** array.py 165-177: set_prop_paths. *)
Definition set_prop_paths (c : coll) (ps : dict (dict path)) : res coll :=
  foldM (fun c sp => foldM (fun c mp => set_prop_path c (snd mp) (fst sp) (fst mp)) c (snd sp)) c ps.

(** array.py 202-218: set_path_types. *)
Definition set_path_type (c : coll) (src_name mic_name pt : string) : res coll :=
  _ <- passert (smem src_name (c_src c)) ;;
  _ <- passert (smem mic_name (c_mic c)) ;;
  ts <- dset2 (c_ptypes c) src_name mic_name pt ;;
  Ok (set_ptypes c ts).
Definition set_path_types (c : coll) (ts : dict (dict string)) : res coll :=
  foldM (fun c sp => foldM (fun c mp => set_path_type c (fst sp) (fst mp) (snd mp)) c (snd sp)) c ts.

(** array.py 97-109: set_default_path_type. *)
Definition set_default_one (pt : string) (c : coll) (sm : arr * arr) : res coll :=
  let s := a_name (fst sm) in let m := a_name (snd sm) in
  ts <- dgetE (c_ptypes c) s ;;
  ps <- dgetE (c_paths c) s ;;
  if negb (dmem ts m) && negb (dmem ps m) then
    x <- dset2 (c_ptypes c) s m pt ;; Ok (set_ptypes c x)
  else if dmem ps m then
    x <- dset2 (c_ptypes c) s m "modified"%string ;; Ok (set_ptypes c x)
  else Ok c.
Definition set_default_path_type (c : coll) (pt : string) : res coll :=
  cs <- mic_src_combos c ;; foldM (set_default_one pt) c cs.

(** simulator.py 59-68: SimulatorSetup.add_arrays (the paths of the added collection are not copied). *)
Definition add_arrays (c c2 : coll) : res coll :=
  c' <- foldM (fun c kv => let '(c', r) := add_array c (snd kv) in _ <- r ;; Ok c') c (c_arrays c2) ;;
  set_path_types c' (c_ptypes c2).

(** roomimpulseresponse.py 104-171: create_path.  [ism3d] stands for ir_room_image_source_3d
    (modelled in RirModel), [np_normal] for numpy.random.normal, [filter_rirs] for the high-pass. *)
Definition zeros_path (ns nm len : Z) : path := mkPath ns nm len (fun _ _ _ => v0).
Definition eye_path (n : Z) : path := mkPath n n 1 (fun i j _ => if i =? j then v1 else v0).
Definition create_path (i : info) (g : G) (src mic : arr) (reverb : string) : res (G * path) :=
  gp <- (if String.eqb reverb "none" then Ok (g, zeros_path (a_num src) (a_num mic) 1)
         else if String.eqb reverb "direct" then
           (_ <- passert (a_num src =? a_num mic) ;; Ok (g, eye_path (a_num src)))
         else if String.eqb reverb "random" then
           let '(g', f) := np_normal g (a_num src) (a_num mic) (max_room_ir_length i) in
           Ok (g', mkPath (a_num src) (a_num mic) (max_room_ir_length i) f)
         else if String.eqb reverb "ism" then
           if spatial_dims i =? 3 then
             (* 301-302: directional microphones are rejected *)
             if existsb (fun d => negb (String.eqb d "omni")) (a_dirs mic) then Err NotImplementedError
             else ism3d (rir_params i) g (a_pos src) (a_pos mic)
           else Err ValueError
         else Err ValueError) ;;
  Ok (fst gp, if 0 <? highpass_cutoff i
              then filter_rirs (snd gp) (samplerate i) (highpass_cutoff i) else snd gp).

(** roomimpulseresponse.py 65-97: calc_rir_parameters; only its effect of raising is kept:
    np.min over the (num_src x num_mic) distance matrix of every pair raises for an empty matrix. *)
Definition calc_rir_parameters (c : coll) : res unit :=
  cs <- mic_src_combos c ;;
  foldM (fun _ sm => if (a_num (fst sm) =? 0) || (a_num (snd sm) =? 0) then Err ValueError else Ok tt) tt cs.

(** array.py 234-261: setup_ir (the dictionary path_info is left out). *)
Definition setup_one (i : info) (c : coll) (sm : arr * arr) : res coll :=
  let s := fst sm in let m := snd sm in
  rv <- (if (a_num s =? 0) || (a_num m =? 0) then Ok "none"%string
         else dget2E (c_ptypes c) (a_name s) (a_name m)) ;;
  if negb (String.eqb rv "modified") then
    gp <- create_path i (c_rng c) s m rv ;;
    ps <- dset2 (c_paths c) (a_name s) (a_name m) (snd gp) ;;
    Ok (set_rng (set_paths c ps) (fst gp))
  else Ok c.
Definition setup_ir (c : coll) (i : info) : res coll :=
  let c := set_info c i in
  _ <- calc_rir_parameters c ;;
  cs <- mic_src_combos c ;;
  foldM (setup_one i) c cs.

(** array.py 264-276: update_path. *)
Definition update_path (c : coll) (src mic : arr) : res coll :=
  rv <- dget2E (c_ptypes c) (a_name src) (a_name mic) ;;
  _ <- passert (negb (String.eqb rv "modified")) ;;
  match c_info c with
  | None => Err AttributeError
  | Some i =>
    gp <- create_path i (c_rng c) src mic rv ;;
    ps <- dset2 (c_paths c) (a_name src) (a_name mic) (snd gp) ;;
    Ok (set_rng (set_paths c ps) (fst gp))
  end.

(** array.py 558-564: Array.update. *)
Definition arr_update (a : arr) (g : Z) : arr :=
  match a_traj a with
  | Some tr => mkArr (a_name a) (a_kind a) (a_num a) (tr g) (a_traj a) (a_dirs a) (a_source a)
                     (a_time_all a ++ [g]) (a_pos_all a ++ [tr g])
  | None => a
  end.

(** array.py 304-317: body of the loop over changed arrays; the accumulator holds the
    collection and the list already_updated. *)
Definition update_changed (acc : coll * list string) (ar_name : string) : res (coll * list string) :=
  let '(c, already) := acc in
  a <- dgetE (c_arrays c) ar_name ;;
  c' <- (if is_mic a then
           ss <- sources c ;;
           c' <- foldM (fun c s => if negb (smem (a_name s) already) then update_path c s a else Ok c) c ss ;;
           (* line 309 reads the loop variable src, unbound when there is no source *)
           match ss with [] => Err UnboundLocalError | _ => Ok c' end
         else if is_source a then
           ms <- mics c ;;
           foldM (fun c m => if negb (smem (a_name m) already) then update_path c a m else Ok c) c ms
         else Err ValueError) ;;
  Ok (c', already ++ [ar_name]).

(** array.py 278-317: ArrayCollection.update. *)
Definition update (c : coll) (glob_idx : Z) : res coll :=
  match c_info c with
  | None => Err AttributeError
  | Some i =>
    if array_update_freq i =? 0 then Err ZeroDivisionError
    else if negb (glob_idx mod array_update_freq i =? 0) then Ok c
    else
      let arrays' := map (fun kv => (fst kv, arr_update (snd kv) glob_idx)) (c_arrays c) in
      let changed := map fst (filter (fun kv => dynamic (snd kv)) (c_arrays c)) in
      r <- foldM update_changed (set_arrays c arrays', []) changed ;;
      Ok (fst r)
  end.

End Arrays.
Arguments coll : clear implicits.
