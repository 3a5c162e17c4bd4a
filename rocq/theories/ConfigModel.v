(** Model of src/aspsim/configutil.py. *)
Require Import Verif.PyBase.
Set Implicit Arguments.

(** A finite double is an integer multiple of 2^-1074; floats of the configuration are
    represented by that integer, so [=] and [<] are those of the floats (NaN, inf excluded). *)
Definition float_ := Z.

(** configutil.py 6-32: dataclass SimulatorInfo (all fields). *)
Record info := mkInfo {
  tot_samples : Z;
  sim_buffer : Z;
  sim_chunk_size : Z;
  start_sources_before_0 : bool;
  save_source_contributions : bool;
  array_update_freq : Z;
  samplerate : Z;
  c_sound : float_;                (* field c *)
  spatial_dims : Z;
  reverb : string;
  room_size : list float_;
  room_center : list float_;
  rt60 : float_;
  max_room_ir_length : Z;
  randomized_ism : bool;
  extra_delay : Z;
  highpass_cutoff : float_;
  export_frequency : Z;
  plot_output : string;
  output_smoothing : Z;
  auto_save_load : bool
}.

(** configutil.py 35-40: __post_init__. *)
Definition info_post_init (i : info) : res info :=
  _ <- passert (zlen (room_size i) =? spatial_dims i) ;;
  _ <- passert (zlen (room_center i) =? spatial_dims i) ;;
  _ <- passert (smem (reverb i) ["none"; "direct"; "ism"]%string) ;;
  Ok i.

(** == on Python lists of floats *)
Fixpoint listZ_eqb (a b : list Z) : bool :=
  match a, b with
  | [], [] => true
  | x :: a', y :: b' => (x =? y) && listZ_eqb a' b'
  | _, _ => false
  end.

(** configutil.py 62-77: equal_audio. *)
Definition equal_audio (i1 i2 : info) (path_types : dict (dict string)) : bool :=
  let same_audio :=
    (samplerate i1 =? samplerate i2) && (c_sound i1 =? c_sound i2) &&
    (spatial_dims i1 =? spatial_dims i2) && String.eqb (reverb i1) (reverb i2) in
  if existsb (fun src_types => existsb (fun t => String.eqb "ism" (snd t)) (snd src_types)) path_types
  then same_audio &&
    listZ_eqb (room_size i1) (room_size i2) && listZ_eqb (room_center i1) (room_center i2) &&
    (rt60 i1 =? rt60 i2) && (max_room_ir_length i1 =? max_room_ir_length i2) &&
    Bool.eqb (randomized_ism i1) (randomized_ism i2) && (extra_delay i1 =? extra_delay i2) &&
    (highpass_cutoff i1 =? highpass_cutoff i2)
  else same_audio.
