(** Model of src/aspsim/simulator.py: Signals, Propagator, Simulator.run_simulation.

    A signal array of shape (dims..., time) is a list of frames, one per time index. *)
Require Import Verif.PyBase Verif.ConfigModel Verif.ArrayModel Verif.LoggerModel.
Set Implicit Arguments.

Section Frames.
Context {E : AEnv}.
Definition frame := list V.
Definition zeros (n : Z) : frame := zrep n v0.

(** numpy in-place addition of one frame to another of possibly different size:
    sizes must agree, or the added frame must have size 1. *)
Fixpoint fadd_eq (a b : frame) : frame :=
  match a, b with
  | x :: a', y :: b' => vadd x y :: fadd_eq a' b'
  | _, _ => []
  end.
Definition fadd (a b : frame) : res frame :=
  if zlen a =? zlen b then Ok (fadd_eq a b)
  else match b with
       | [y] => Ok (map (fun x => vadd x y) a)
       | _ => Err ValueError
       end.

Fixpoint fadd_list (xs ys : list frame) : res (list frame) :=
  match xs, ys with
  | x :: xs', y :: ys' => z <- fadd x y ;; zs <- fadd_list xs' ys' ;; Ok (z :: zs)
  | _, _ => Ok []
  end.

(** buf[..., a:b] += y along the time axis, with broadcasting of a single frame. *)
Definition slice_add (buf : list frame) (a b : Z) (y : list frame) : res (list frame) :=
  let s := pyslice buf a b in
  z <- (if zlen s =? zlen y then fadd_list s y
        else match y with
             | [y0] => fadd_list s (zrep (zlen s) y0)
             | _ => Err ValueError
             end) ;;
  pyslice_set buf a b z.

(* ------------------------------------------------------------ aspcore filter (external) *)
(** External: aspcore.filter.create_filter(ir, sum_over_input=True, dynamic=...).
    A finite impulse response filter that keeps its last (length-1) input frames, sums over the
    input channels, and whose impulse response can be exchanged by update_ir (dynamic filters). *)
Definition vsum (l : list V) : V := fold_left vadd l v0.
Definition chan (f : frame) (i : Z) : V := match zget f i with Some x => x | None => v0 end.

Record fir := mkFir { f_path : path V; f_buf : list frame }.
Definition fir_init (p : path V) : fir := mkFir p (zrep (p_len p - 1) (zeros (p_ns p))).
Definition fir_out (p : path V) (inputs : list frame) : frame :=
  map (fun m =>
    vsum (map (fun s =>
      vsum (map (fun k =>
        vmul (p_at p s m k)
             (match zget inputs (p_len p - 1 - k) with Some x => chan x s | None => v0 end))
        (zrange 0 (p_len p))))
      (zrange 0 (p_ns p))))
    (zrange 0 (p_nm p)).
Definition fir_step (f : fir) (x : frame) : fir * frame :=
  let inputs := f_buf f ++ [x] in
  (mkFir (f_path f) (skipn 1 inputs), fir_out (f_path f) inputs).
Fixpoint fir_process (f : fir) (xs : list frame) : fir * list frame :=
  match xs with
  | [] => (f, [])
  | x :: r => let '(f1, y) := fir_step f x in let '(f2, ys) := fir_process f1 r in (f2, y :: ys)
  end.
Definition same_shape (p q : path V) : bool :=
  (p_ns p =? p_ns q) && (p_nm p =? p_nm q) && (p_len p =? p_len q).
Definition fir_update (f : fir) (p : path V) : res fir :=
  if same_shape (f_path f) p then Ok (mkFir p (f_buf f)) else Err ValueError.
End Frames.

(** What the simulator takes from outside: the processor's state space and the diagnostics. *)
Class SEnv {E : AEnv} := mkSEnv {
  PS : Type;                                      (* state of a processor *)
  D : Type;                                       (* state of a diagnostic *)
  Out : Type;                                     (* exported data *)
  dsave : D -> option PS -> dict (list frame) -> Z * Z -> res D;
  dout : D -> Z -> res Out
}.

Section Sim.
Context {E : AEnv} {S : SEnv}.
Notation arr := (arr Pos Src).

(** processor.py 10-35: an AudioProcessor.  process(block_size) is a function of the processor's
    state and of the last [pr_hist] frames before sig.idx of every signal; the frames it returns are
    assigned to sig[name][..., idx:idx+block_size] (the contract stated in process' docstring).
    [pr_locals] are signals created in its constructor (name, channels). *)
Record proc := mkProc {
  pr_bs : Z;
  pr_hist : Z;
  pr_locals : list (string * Z);
  pr_step : PS -> dict (list frame) -> PS * dict (list frame);
  pr_state : PS
}.

Definition signals := dict (Z * list frame).

(** simulator.py 378-394: create_signal. *)
Definition create_signal (i : info) (s : signals) (name : string) (dim : Z) : res signals :=
  _ <- passert (negb (dmem s name)) ;;
  Ok (dset s name (dim, zrep (sim_buffer i + sim_chunk_size i) (zeros dim))).

(** name of the contribution signal *)
Definition contrib (s m : string) : string := (s ++ "~" ++ m)%string.

(** simulator.py 351-361: Signals.__init__. *)
Definition signals_init (i : info) (c : coll E) : res signals :=
  s <- foldM (fun s kv => create_signal i s (a_name (snd kv)) (a_num (snd kv))) [] (c_arrays c) ;;
  if save_source_contributions i then
    cs <- mic_src_combos c ;;
    foldM (fun s sm => create_signal i s (contrib (a_name (fst sm)) (a_name (snd sm))) (a_num (snd sm))) s cs
  else Ok s.

(** numpy assignment of a frame to a signal with [dim] channels: sizes agree or the frame has size 1 *)
Definition fit (dim : Z) (f : frame) : res frame :=
  if zlen f =? dim then Ok f
  else match f with [x] => Ok (zrep dim x) | _ => Err ValueError end.
(** sig[name][..., a:b] = new *)
Definition sig_set (s : signals) (name : string) (a b : Z) (new : list frame) : res signals :=
  x <- dgetE s name ;;
  new' <- mapM (fit (fst x)) new ;;
  buf <- pyslice_set (snd x) a b new' ;;
  Ok (dset s name (fst x, buf)).
(** sig[name][..., a:b] += y *)
Definition sig_add (s : signals) (name : string) (a b : Z) (y : list frame) : res signals :=
  x <- dgetE s name ;;
  buf <- slice_add (snd x) a b y ;;
  Ok (dset s name (fst x, buf)).
(** sig[name][..., a:b] *)
Definition sig_get (s : signals) (name : string) (a b : Z) : res (list frame) :=
  x <- dgetE s name ;; Ok (pyslice (snd x) a b).

(** simulator.py 396-405: _reset_signals (the index is handled by the caller). *)
Definition reset_signals (i : info) (s : signals) : signals :=
  map (fun kv => (fst kv, (fst (snd kv),
     pyslice (snd (snd kv)) (- sim_buffer i) (zlen (snd (snd kv)))
       ++ zrep (sim_chunk_size i) (zeros (fst (snd kv)))))) s.

(** simulator.py 414-418: path_filters. *)
Definition filters_init (c : coll E) : res (dict (dict fir)) :=
  cs <- mic_src_combos c ;;
  foldM (fun fs sm =>
    let sn := a_name (fst sm) in let mn := a_name (snd sm) in
    p <- dget2E (c_paths c) sn mn ;;
    let fs := if dmem fs sn then fs else dset fs sn [] in
    dset2 fs sn mn (fir_init p)) [] cs.

(** one pass over the free sources: simulator.py 434-435 and 464-465 *)
Definition run_free (a b n : Z) (acc : coll E * signals) (name : string) : res (coll E * signals) :=
  let '(c, s) := acc in
  ar <- dgetE (c_arrays c) name ;;
  match a_source ar with
  | None => Err AttributeError
  | Some src =>
    let '(src', xs) := src_get src n in
    s' <- sig_set s name a b xs ;;
    let ar' := mkArr (a_name ar) (a_kind ar) (a_num ar) (a_pos ar) (a_traj ar) (a_dirs ar) (Some src')
                     (a_time_all ar) (a_pos_all ar) in
    Ok (set_arrays c (dset (c_arrays c) name ar'), s')
  end.

(** one source/microphone pair: simulator.py 437-442 ([ma,mb) is the slice added to the microphone,
    [a,b) the slice filtered and stored as contribution) and 471-476 (both slices equal). *)
Definition run_pair (i : info) (a b ma mb : Z) (acc : dict (dict fir) * signals) (sm : arr * arr)
    : res (dict (dict fir) * signals) :=
  let '(fs, s) := acc in
  let sn := a_name (fst sm) in let mn := a_name (snd sm) in
  f <- dget2E fs sn mn ;;
  x <- sig_get s sn a b ;;
  let '(f', y) := fir_process f x in
  fs' <- dset2 fs sn mn f' ;;
  s' <- sig_add s mn ma mb y ;;
  s'' <- (if save_source_contributions i then sig_set s' (contrib sn mn) a b y else Ok s') ;;
  Ok (fs', s'').

(** State of a running Simulator. [sm_out] is the log of exports (files written by diagnostics). *)
Record sim := mkSim {
  sm_coll : coll E;
  sm_sigs : signals;
  sm_idx : Z;
  sm_flt : dict (dict fir);
  sm_procs : list proc;
  sm_diags : dict (diag D);
  sm_out : list (string * Z * Out);
  sm_n : Z                                 (* n_tot *)
}.

(** simulator.py 420-443: Propagator.prepare. *)
Definition prop_prepare (i : info) (c : coll E) (s : signals) (fs : dict (dict fir))
    : res (coll E * signals * dict (dict fir)) :=
  let num := if start_sources_before_0 i then sim_buffer i else 1 in
  let e := sim_buffer i in
  cs <- foldM (run_free (e - num) e num) (c, s) (c_free c) ;;
  let '(c, s) := cs in
  combos <- mic_src_combos c ;;
  fss <- foldM (run_pair i (e - num) e 0 (sim_buffer i)) (fs, s) combos ;;
  Ok (c, snd fss, fst fss).

(** simulator.py 467-469: exchange of the responses of filters with a moving endpoint. *)
Definition refresh_pair (c : coll E) (fs : dict (dict fir)) (sm : arr * arr) : res (dict (dict fir)) :=
  if dynamic (fst sm) || dynamic (snd sm) then
    let sn := a_name (fst sm) in let mn := a_name (snd sm) in
    f <- dget2E fs sn mn ;;
    p <- dget2E (c_paths c) sn mn ;;
    f' <- fir_update f p ;;
    dset2 fs sn mn f'
  else Ok fs.

(** simulator.py 446-476: Propagator.propagate(1). *)
Definition propagate (i : info) (c : coll E) (s : signals) (fs : dict (dict fir)) (idx : Z)
    : res (coll E * signals * dict (dict fir)) :=
  cs <- foldM (run_free idx (idx + 1) 1) (c, s) (c_free c) ;;
  let '(c, s) := cs in
  combos <- mic_src_combos c ;;
  fs <- foldM (refresh_pair c) fs combos ;;
  fss <- foldM (run_pair i idx (idx + 1) idx (idx + 1)) (fs, s) combos ;;
  Ok (c, snd fss, fst fss).

(** proc.process(block_size), see [proc]. *)
Definition process (p : proc) (s : signals) (idx : Z) : res (proc * signals) :=
  let windows := view s (idx - pr_hist p) idx in
  let '(ps', outs) := pr_step p (pr_state p) windows in
  s' <- foldM (fun s o => sig_set s (fst o) idx (idx + pr_bs p) (snd o)) s outs ;;
  Ok (mkProc (pr_bs p) (pr_hist p) (pr_locals p) (pr_step p) ps', s').

(** simulator.py 296-298: the loop over processors. *)
Definition run_procs (idx n : Z) (acc : list proc * signals) (p : proc) : res (list proc * signals) :=
  let '(ps, s) := acc in
  if pr_bs p =? 0 then Err ZeroDivisionError
  else if n mod pr_bs p =? pr_bs p - 1 then
    r <- process p s idx ;; Ok (ps ++ [fst r], snd r)
  else Ok (ps ++ [p], s).

(** simulator.py 318-323 *)
Definition current_proc (ps : list proc) : res (option PS) :=
  match ps with
  | [] => Ok None
  | [p] => Ok (Some (pr_state p))
  | _ => Err NotImplementedError
  end.

(** simulator.py 293-309: one iteration of the main loop, including
    diag_moved_from_propagate (314-327) and last_block_on_buffer (329-330). *)
Definition sim_step (i : info) (mbs : Z) (st : sim) : res sim :=
  c <- update (sm_coll st) (sm_n st) ;;
  pss <- foldM (run_procs (sm_idx st) (sm_n st)) ([], sm_sigs st) (sm_procs st) ;;
  let '(ps, s) := pss in
  csf <- propagate i c s (sm_flt st) (sm_idx st) ;;
  let '(c, s, fs) := csf in
  let last_block := sim_chunk_size i + sim_buffer i <=? sm_idx st + mbs in
  cp <- current_proc ps ;;
  dg <- save_data dsave cp s (sm_idx st) (sm_n st) last_block (sm_diags st) ;;
  let s := if last_block then reset_signals i s else s in
  let idx := if last_block then sm_idx st - sim_chunk_size i else sm_idx st in
  do <- dispatch dout (plot_output i) (dg, sm_out st) ;;
  Ok (mkSim c s (idx + 1) fs ps (fst do) (snd do) (sm_n st + 1)).

(** simulator.py 293: the while loop. *)
Fixpoint sim_loop (i : info) (mbs : Z) (fuel : nat) (st : sim) : res sim :=
  if sm_n st <? tot_samples i + mbs then
    match fuel with
    | O => Err OutOfFuel
    | Datatypes.S k => st' <- sim_step i mbs st ;; sim_loop i mbs k st'
    end
  else Ok st.

(** simulator.py 254-281: _prepare_simulation (processor names and metadata files left out,
    proc.prepare() is the identity). *)
Definition prepare_simulation (i : info) (c : coll E) (procs : list proc) (diags : dict (diag D)) : res sim :=
  if 1 <? zlen procs then Err NotImplementedError
  else
    s <- signals_init i c ;;
    s <- (match procs with
          | [] => Ok s
          | p :: _ =>
            foldM (fun s nd => create_signal i s (fst nd) (snd nd)) s
                  (filter (fun nd => negb (dmem s (fst nd))) (pr_locals p))
          end) ;;
    fs <- filters_init c ;;
    csf <- prop_prepare i c s fs ;;
    let '(c, s, fs) := csf in
    Ok (mkSim c s (sim_buffer i) fs procs diags [] 0).

(** simulator.py 289: max_block_size. *)
Definition max_block_size (i : info) (procs : list proc) : Z :=
  match procs with
  | [] => sim_buffer i / 4
  | p :: r => fold_left Z.max (map pr_bs r) (pr_bs p)
  end.

(** simulator.py 284-312: run_simulation. *)
Definition run_simulation (i : info) (c : coll E) (procs : list proc) (diags : dict (diag D)) : res sim :=
  st <- prepare_simulation i c procs diags ;;
  let mbs := max_block_size i procs in
  st <- sim_loop i mbs (Z.to_nat (tot_samples i + mbs)) st ;;
  do <- dispatch dout (plot_output i) (sm_diags st, sm_out st) ;;
  Ok (mkSim (sm_coll st) (sm_sigs st) (sm_idx st) (sm_flt st) (sm_procs st) (fst do) (snd do) (sm_n st)).

End Sim.
Arguments sim {E S}.
Arguments proc {E S}.
