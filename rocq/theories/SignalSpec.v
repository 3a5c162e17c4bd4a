(** Closed forms of the recorded signals: convolution sums, generator samples, processor output. *)
Require Import Verif.PyBase Verif.ConfigModel Verif.ArrayModel Verif.ArraySpec Verif.LoggerModel Verif.SimModel Verif.SimSpec.
Set Implicit Arguments.

Section Spec.
Context {E : AEnv}.
Notation arr := (arr Pos Src).

(** output j at time t of the source signal x (one frame per time) sent through the path p:
    sum over the sources of the array and over the samples of the impulse response *)
Definition convolved (p : path V) (x : Z -> frame) (t j : Z) : V :=
  vsum (map (fun s => vsum (map (fun k => vmul (p_at p s j k) (chan (x (t - k)) s)) (zrange 0 (p_len p))))
            (zrange 0 (p_ns p))).
(** all outputs of the path at time t *)
Definition response (p : path V) (x : Z -> frame) (t : Z) : frame :=
  map (convolved p x t) (zrange 0 (p_nm p)).
(** channel by channel sum of frames with n channels, and the same starting from a given frame *)
Definition mix (n : Z) (l : list frame) : frame :=
  map (fun j => vsum (map (fun y => chan y j) l)) (zrange 0 n).
Definition mix_on (base : frame) (n : Z) (l : list frame) : frame :=
  map (fun j => fold_left vadd (map (fun y => chan y j) l) (chan base j)) (zrange 0 n).

(** frame k of a block assigned to a signal with d channels: a single frame stands for all of them, a
    single channel for all channels (numpy assignment) *)
Definition shown (d : Z) (xs : list frame) (k : Z) : frame :=
  let x := match xs with [x] => x | _ => match zget xs k with Some x => x | None => [] end end in
  match x with [v] => zrep d v | _ => x end.

(** the k-th answer of a generator that is first asked for n samples and then for one at a time,
    and the generator's state after it *)
Fixpoint nth_draw (src : Src) (n : Z) (k : nat) : Src * list frame :=
  match k with
  | O => src_get src n
  | S k' => src_get (fst (nth_draw src n k')) 1
  end.
(** a free source with d channels: the answer to the first request (n samples) ends at time 0, then
    one answer per time step; zero before *)
Definition free_signal (d : Z) (src : Src) (n : Z) (t : Z) : frame :=
  if t <? 1 - n then zeros d
  else if t <=? 0 then shown d (snd (nth_draw src n 0)) (t - (1 - n))
  else shown d (snd (nth_draw src n (Z.to_nat t))) 0.
(** the array at the position it has at time t *)
Definition placed_at (a : arr) (t : Z) : arr :=
  match a_traj a with
  | Some tr => mkArr (a_name a) (a_kind a) (a_num a) (tr t) (a_traj a) (a_dirs a) (a_source a) (a_time_all a) (a_pos_all a)
  | None => a
  end.
(** the last time before t at which positions were updated *)
Definition last_update (freq t : Z) : Z := (t - 1) / Z.abs freq * Z.abs freq.
(** the path stored for a pair *)
Definition path_of (c : coll E) (s m : string) : path V :=
  match lookup2 (c_paths c) s m with Some p => p | None => mkPath 0 0 0 (fun _ _ _ => v0) end.
End Spec.

Section ProcSpec.
Context {E : AEnv} {S : SEnv}.
(** the processor's state after k calls; call k happens at time k * block_size and is shown the
    pr_hist samples of every signal before that time *)
Fixpoint state_after (ds : dims) (tl : timeline) (p : proc) (k : nat) : PS :=
  match k with
  | O => pr_state p
  | Datatypes.S k' =>
    fst (pr_step p (state_after ds tl p k')
           (window ds tl (Z.of_nat k * pr_bs p - pr_hist p) (Z.of_nat k * pr_bs p)))
  end.
(** what call k (k >= 1) returns *)
Definition output_of (ds : dims) (tl : timeline) (p : proc) (k : nat) : dict (list frame) :=
  snd (pr_step p (state_after ds tl p (k - 1))
         (window ds tl (Z.of_nat k * pr_bs p - pr_hist p) (Z.of_nat k * pr_bs p))).
Definition silent (ds : dims) (nm : string) : frame := silence ds nm 0.
(** signal nm as written by the processor calls up to time T: call k fills the block that starts at
    k * block_size; zero where no call has written *)
Definition written (ds : dims) (tl : timeline) (procs : list proc) (T : Z) (nm : string) (u : Z) : frame :=
  match procs with
  | [p] =>
    let k := u / pr_bs p in
    if (1 <=? k) && (k * pr_bs p <=? T) then
      match dget (output_of ds tl p (Z.to_nat k)) nm with
      | Some xs => shown (match dget ds nm with Some d => d | None => 0 end) xs (u - k * pr_bs p)
      | None => silent ds nm
      end
    else silent ds nm
  | _ => silent ds nm
  end.

(** Before the first time step: [n] is the number of samples the sources are started ahead, the last
    of which is time 0.  A microphone signal is given up to time 0 by the sources played up to then;
    when sources start at time 0 ([early] = None) its value at time 0 is found at all earlier times. *)
Definition first_request (early : option Z) : Z := match early with None => 1 | Some n => n end.
Definition start_mic (early : option Z) (t : Z) : option Z :=
  match early with
  | None => if t <=? 0 then Some 0 else None
  | Some n => if (1 - n <=? t) && (t <=? 0) then Some t else None
  end.
Record start_law (ct : bool) (early : option Z) (c : coll E) (tl : timeline) : Prop := {
  st_mic : forall m b t, In m (c_mic c) -> the_array c m b -> t <= 0 ->
    tl m t = match start_mic early t with
             | Some u => mix (a_num b) (map (fun s => response (path_of c s m) (tl s) u) (c_src c))
             | None => zeros (a_num b)
             end;
  st_con : ct = true -> forall s m b t, In s (c_src c) -> In m (c_mic c) -> the_array c m b -> t <= 0 ->
    tl (contrib s m) t = if 1 - first_request early <=? t then response (path_of c s m) (tl s) t else zeros (a_num b)
}.
End ProcSpec.
