(** Model of the process-wide constants of pyroomacoustics (roomimpulseresponse.py 77 and 97) with several simulators in one
    process.  In ArrayModel every path is computed with the speed of sound and the delay of the collection's own settings;
    here they are those that pyroomacoustics has at the time. *)
Require Import Verif.PyBase Verif.ConfigModel Verif.ArrayModel.
Set Implicit Arguments.
Local Open Scope Z_scope.

(** pra.constants: "c" and "frac_delay_length", the only ones that aspsim sets *)
Record constants := mkConstants { k_c : float_; k_frac : Z }.
(** roomimpulseresponse.py 77, 94-97: what calc_rir_parameters stores; min_dly is 0 *)
Definition constants_of (i : info) : constants := mkConstants (c_sound i) (2 * (0 + extra_delay i) + 1).
(** the settings with which the image source method is run: c and extra_delay come from the constants, everything else is
    passed as an argument (134-148) *)
Definition under (k : constants) (i : info) : info :=
  mkInfo (tot_samples i) (sim_buffer i) (sim_chunk_size i) (start_sources_before_0 i) (save_source_contributions i) (array_update_freq i) (samplerate i) (k_c k)
    (spatial_dims i) (reverb i) (room_size i) (room_center i) (rt60 i) (max_room_ir_length i) (randomized_ism i) ((k_frac k - 1) / 2)
    (highpass_cutoff i) (export_frequency i) (plot_output i) (output_smoothing i) (auto_save_load i).

Section Process.
Context {E : AEnv}.
(** array.py 278-317 (update) with the constants that are set at the time; the attribute sim_info stays *)
Definition update_under (k : constants) (c : coll E) (g : Z) : res (coll E) :=
  match c_info c with
  | None => Err AttributeError
  | Some i => c' <- update (set_info c (under k i)) g ;; Ok (set_info c' i)
  end.
(** a process: the constants and the array collections of its simulators *)
Record process := mkProcess { pc_constants : constants; pc_sims : dict (coll E) }.
(** what can happen: create_simulator computes the paths of a setup (simulator.py 196, 199, array.py 234-261) or takes over a
    stored collection (194), and a running simulator gets to a time index (simulator.py 294).  The name stands for the variable that holds the simulator. *)
Inductive event := Create (name : string) (arrays : coll E) (i : info) | Load (name : string) (stored : coll E) | Tick (name : string) (g : Z).
(** An exception is caught by the caller, who goes on with the simulators there are.  The constants are set before anything of
    setup_ir can fail. *)
Definition happen (p : process) (e : event) : process :=
  match e with
  | Create name arrays i =>
      let k := constants_of i in
      match setup_ir arrays i with
      | Ok c => mkProcess k (dset (pc_sims p) name c)
      | Err _ => mkProcess k (pc_sims p)
      end
  | Load name stored => mkProcess (pc_constants p) (dset (pc_sims p) name stored)
  | Tick name g =>
      match dget (pc_sims p) name with
      | Some c => match update_under (pc_constants p) c g with
                  | Ok c' => mkProcess (pc_constants p) (dset (pc_sims p) name c')
                  | Err _ => p
                  end
      | None => p
      end
  end.
Definition history (p : process) (h : list event) : process := fold_left happen h p.
End Process.
Arguments process E : clear implicits.
Arguments event E : clear implicits.
