(** The signals of a simulation and what is assumed of an experiment. *)
Require Import Verif.PyBase Verif.ConfigModel Verif.ArrayModel Verif.ArraySpec Verif.LoggerModel Verif.LoggerSpec
  Verif.SimModel Verif.SimSpec Verif.SimDiag Verif.SignalSpec.
Set Implicit Arguments.

Section Run.
Context {E : AEnv} {S : SEnv}.
Notation arr := (arr Pos Src).

(** the value of every signal at every time, according to the reference simulator (no buffers) *)
Definition signals_of (i : info) (c : coll E) (procs : list proc) : timeline :=
  match ref_run (save_source_contributions i) (early_start i) c procs (run_length i procs) with
  | Ok r => r_tl r
  | Err _ => fun _ _ => []
  end.
(** the number of channels of every signal *)
Definition dims_of (i : info) (c : coll E) (procs : list proc) : dims :=
  match ref_dims (save_source_contributions i) c procs with Ok ds => ds | Err _ => [] end.

(** the processor's state after time step b: (b+1) / block_size calls have been made *)
Definition proc_state (i : info) (c : coll E) (procs : list proc) (b : Z) : option PS :=
  match procs with
  | [p] => Some (state_after (dims_of i c procs) (signals_of i c procs) p (Z.to_nat ((b + 1) / pr_bs p)))
  | _ => None
  end.

(** Assumptions on an experiment: buffer and chunk large enough, a consistent array collection with
    paths that fit their arrays, and a processor that returns a dictionary (no name twice). *)
Record experiment (i : info) (c : coll E) (procs : list proc) : Prop := {
  ex_sizes : supported i procs;
  ex_coll : coll_ok c;
  ex_paths : shaped c;
  ex_counts : forall k a, the_array c k a -> 0 <= a_num a;
  ex_dict : Forall (fun p => forall s w, NoDup (dkeys (snd (pr_step p s w)))) procs
}.
(** Diagnostics with distinct names, each with increasing save intervals and export times *)
Definition good_diags (i : info) (diags : dict (diag D)) : Prop :=
  NoDup (dkeys diags) /\ forall nm d, dget diags nm = Some d -> diag_ok i d.

(** no processor writes to the microphone m *)
Definition mic_untouched (procs : list proc) (m : string) : Prop :=
  Forall (fun p => forall s w, dget (snd (pr_step p s w)) m = None) procs.
(** a signal that nobody but the processor writes: a controllable source or a signal of its own *)
Definition processor_signal (i : info) (c : coll E) (nm : string) : Prop :=
  ~ In nm (c_free c) /\ ~ In nm (c_mic c) /\
  (save_source_contributions i = true -> forall s m, In s (c_src c) -> In m (c_mic c) -> nm <> contrib s m).
End Run.
