(** Reference simulator: the same experiment on unbounded time lines.

    There is no buffer, no chunk and no index arithmetic here.  [tl name t] is the value of signal
    [name] at time [t] (any integer; time 0 is the first recorded sample).  One step computes time
    [t] = g+1 from what happened before. *)
Require Import Verif.PyBase Verif.ConfigModel Verif.ArrayModel Verif.LoggerModel Verif.SimModel.
Set Implicit Arguments.

Section Ref.
Context {E : AEnv} {S : SEnv}.
Notation arr := (arr Pos Src).
Definition timeline := string -> Z -> frame.

(** number of channels of every signal *)
Definition dims := dict Z.

(** times a .. b-1 of every signal *)
Definition window (ds : dims) (tl : timeline) (a b : Z) : dict (list frame) :=
  map (fun kd => (fst kd, map (tl (fst kd)) (zrange a b))) ds.

(** the signals of a simulation: one per array, one per source/microphone pair when contributions
    are recorded, and those the processor has created; names must not clash *)
Definition declare (ds : dims) (nd : string * Z) : res dims :=
  _ <- passert (negb (dmem ds (fst nd))) ;; Ok (dset ds (fst nd) (snd nd)).
Definition ref_dims (contributions : bool) (c : coll E) (procs : list proc) : res dims :=
  ds <- foldM declare [] (map (fun kv => (a_name (snd kv), a_num (snd kv))) (c_arrays c)) ;;
  ds <- (if contributions then
           cs <- mic_src_combos c ;;
           foldM declare ds (map (fun sm => (contrib (a_name (fst sm)) (a_name (snd sm)), a_num (snd sm))) cs)
         else Ok ds) ;;
  match procs with
  | [] => Ok ds
  | p :: _ => foldM declare ds (filter (fun nd => negb (dmem ds (fst nd))) (pr_locals p))
  end.

(** write frames to [name] from time t on; a single frame may stand for n equal ones *)
Definition expand (n : Z) (l : list frame) : res (list frame) :=
  if zlen l =? n then Ok l
  else match l with [x] => Ok (zrep n x) | _ => Err ValueError end.
Definition tl_write (ds : dims) (tl : timeline) (name : string) (t n : Z) (new : list frame) : res timeline :=
  dim <- dgetE ds name ;;
  new' <- mapM (fit dim) new ;;
  new'' <- expand n new' ;;
  Ok (fun nm u => if String.eqb nm name then
                    match zget new'' (u - t) with Some f => f | None => tl nm u end
                  else tl nm u).
(** frame addition when the sizes are known to fit *)
Definition fadd_tot (a y : frame) : frame := match fadd a y with Ok z => z | Err _ => a end.
(** add a frame at time t *)
Definition tl_add (ds : dims) (tl : timeline) (name : string) (t : Z) (y : frame) : res timeline :=
  _ <- dgetE ds name ;;
  z <- fadd (tl name t) y ;;
  Ok (fun nm u => if String.eqb nm name && (u =? t) then z else tl nm u).

Record ref := mkRef {
  r_coll : coll E; r_tl : timeline; r_flt : dict (dict fir); r_procs : list proc }.

(** a free source produces its next sample(s) *)
Definition ref_free (ds : dims) (t n : Z) (acc : coll E * timeline) (name : string) : res (coll E * timeline) :=
  let '(c, tl) := acc in
  ar <- dgetE (c_arrays c) name ;;
  match a_source ar with
  | None => Err AttributeError
  | Some src =>
    let '(src', xs) := src_get src n in
    tl' <- tl_write ds tl name t n xs ;;
    let ar' := mkArr (a_name ar) (a_kind ar) (a_num ar) (a_pos ar) (a_traj ar) (a_dirs ar) (Some src')
                     (a_time_all ar) (a_pos_all ar) in
    Ok (set_arrays c (dset (c_arrays c) name ar'), tl')
  end.

(** propagation from one source to one microphone array at time t *)
Definition ref_pair (contributions : bool) (ds : dims) (t : Z) (acc : dict (dict fir) * timeline) (sm : arr * arr)
    : res (dict (dict fir) * timeline) :=
  let '(fs, tl) := acc in
  let sn := a_name (fst sm) in let mn := a_name (snd sm) in
  f <- dget2E fs sn mn ;;
  _ <- dgetE ds sn ;;
  let '(f', y) := fir_step f (tl sn t) in
  fs' <- dset2 fs sn mn f' ;;
  tl' <- tl_add ds tl mn t y ;;
  tl'' <- (if contributions then tl_write ds tl' (contrib sn mn) t 1 [y] else Ok tl') ;;
  Ok (fs', tl'').

(** the processor: reads the last pr_hist frames before time t, writes from time t on *)
Definition ref_process (ds : dims) (t : Z) (p : proc) (tl : timeline) : res (proc * timeline) :=
  let windows := window ds tl (t - pr_hist p) t in
  let '(ps', outs) := pr_step p (pr_state p) windows in
  tl' <- foldM (fun tl o => tl_write ds tl (fst o) t (pr_bs p) (snd o)) tl outs ;;
  Ok (mkProc (pr_bs p) (pr_hist p) (pr_locals p) (pr_step p) ps', tl').
Definition ref_procs (ds : dims) (t : Z) (acc : list proc * timeline) (p : proc) : res (list proc * timeline) :=
  let '(ps, tl) := acc in
  if pr_bs p =? 0 then Err ZeroDivisionError
  else if t mod pr_bs p =? 0 then
    r <- ref_process ds t p tl ;; Ok (ps ++ [fst r], snd r)
  else Ok (ps ++ [p], tl).

(** one time step: produces time t = g + 1 of every signal *)
Definition ref_step (contributions : bool) (ds : dims) (g : Z) (r : ref) : res ref :=
  let t := g + 1 in
  c <- update (r_coll r) g ;;
  pt <- foldM (ref_procs ds t) ([], r_tl r) (r_procs r) ;;
  let '(ps, tl) := pt in
  ct <- foldM (ref_free ds t 1) (c, tl) (c_free c) ;;
  let '(c, tl) := ct in
  combos <- mic_src_combos c ;;
  fs <- foldM (refresh_pair c) (r_flt r) combos ;;
  ft <- foldM (ref_pair contributions ds t) (fs, tl) combos ;;
  Ok (mkRef c (snd ft) (fst ft) ps).

(** Before the first step.  Sources started at time 0: one sample, time 0; every microphone gets its
    response to it added at all times <= 0.  Sources started early: [early] samples, up to time 0. *)
Definition ref_pair_at_0 (contributions : bool) (ds : dims) (acc : dict (dict fir) * timeline) (sm : arr * arr)
    : res (dict (dict fir) * timeline) :=
  let '(fs, tl) := acc in
  let sn := a_name (fst sm) in let mn := a_name (snd sm) in
  f <- dget2E fs sn mn ;;
  _ <- dgetE ds sn ;;
  let '(f', y) := fir_step f (tl sn 0) in
  fs' <- dset2 fs sn mn f' ;;
  _ <- dgetE ds mn ;;
  _ <- fadd (tl mn 0) y ;;
  let tl' := fun nm u => if String.eqb nm mn && (u <=? 0) then fadd_tot (tl nm u) y else tl nm u in
  tl'' <- (if contributions then tl_write ds tl' (contrib sn mn) 0 1 [y] else Ok tl') ;;
  Ok (fs', tl'').
Definition ref_pair_early (contributions : bool) (ds : dims) (early : Z) (acc : dict (dict fir) * timeline) (sm : arr * arr)
    : res (dict (dict fir) * timeline) :=
  let '(fs, tl) := acc in
  let sn := a_name (fst sm) in let mn := a_name (snd sm) in
  f <- dget2E fs sn mn ;;
  _ <- dgetE ds sn ;;
  let '(f', ys) := fir_process f (map (tl sn) (zrange (1 - early) 1)) in
  fs' <- dset2 fs sn mn f' ;;
  _ <- dgetE ds mn ;;
  zs <- fadd_list (map (tl mn) (zrange (1 - early) 1)) ys ;;
  let tl' := fun nm u => if String.eqb nm mn then
                           match zget zs (u - (1 - early)) with Some z => z | None => tl nm u end
                         else tl nm u in
  tl'' <- (if contributions then tl_write ds tl' (contrib sn mn) (1 - early) early ys else Ok tl') ;;
  Ok (fs', tl'').

Definition silence (ds : dims) : timeline :=
  fun nm _ => match dget ds nm with Some d => zeros d | None => [] end.

(** [early] = None: sources start at time 0; Some n: they start n-1 samples before time 0 *)
Definition ref_prepare (contributions : bool) (early : option Z) (ds : dims) (c : coll E) (procs : list proc) : res ref :=
  fs <- filters_init c ;;
  match early with
  | None =>
    ct <- foldM (ref_free ds 0 1) (c, silence ds) (c_free c) ;;
    let '(c, tl) := ct in
    combos <- mic_src_combos c ;;
    ft <- foldM (ref_pair_at_0 contributions ds) (fs, tl) combos ;;
    Ok (mkRef c (snd ft) (fst ft) procs)
  | Some n =>
    ct <- foldM (ref_free ds (1 - n) n) (c, silence ds) (c_free c) ;;
    let '(c, tl) := ct in
    combos <- mic_src_combos c ;;
    ft <- foldM (ref_pair_early contributions ds n) (fs, tl) combos ;;
    Ok (mkRef c (snd ft) (fst ft) procs)
  end.

(** steps 0 .. n-1 *)
Fixpoint ref_steps (contributions : bool) (ds : dims) (n : nat) (r : ref) : res ref :=
  match n with
  | O => Ok r
  | Datatypes.S k => r' <- ref_steps contributions ds k r ;; ref_step contributions ds (Z.of_nat k) r'
  end.
Definition ref_run (contributions : bool) (early : option Z) (c : coll E) (procs : list proc) (n : nat) : res ref :=
  ds <- ref_dims contributions c procs ;;
  r <- ref_prepare contributions early ds c procs ;; ref_steps contributions ds n r.
End Ref.
Arguments ref {E S}.

(** What diagnostics see and when. *)
Section RefDiag.
Context {E : AEnv} {S : SEnv}.
(** state of the processor after time step b *)
Definition proc_after (contributions : bool) (early : option Z) (c : coll E) (procs : list proc) (b : Z) : option PS :=
  match ref_run contributions early c procs (Z.to_nat (b + 1)) with
  | Ok r => match r_procs r with [p] => Some (pr_state p) | _ => None end
  | Err _ => None
  end.
(** a diagnostic that is handed the given stretches of the time line, one after the other, together
    with the processor as it is right after the last time index of the stretch *)
Definition saves (ds : dims) (tl : timeline) (ps : Z -> option PS) (d : D) (tiles : list (Z * Z)) : res D :=
  foldM (fun d ab => dsave d (ps (snd ab)) (window ds tl (fst ab) (snd ab)) ab) d tiles.

(** The sizes the simulator supports. Without a processor the loop behaves as if the block size
    were sim_buffer // 4. *)
Definition supported (i : info) (procs : list proc) : Prop :=
  match procs with
  | [] => 4 <= sim_buffer i /\ 1 <= sim_chunk_size i
  | p :: _ =>
    1 <= pr_bs p /\ pr_bs p + 1 <= sim_buffer i /\
    0 <= pr_hist p /\ pr_bs p - 1 + pr_hist p <= sim_buffer i /\
    (2 <= sim_chunk_size i \/ sim_chunk_size i = 1 /\ pr_bs p = 1)
  end.
(** where sources start *)
Definition early_start (i : info) : option Z :=
  if start_sources_before_0 i then Some (sim_buffer i) else None.
(** number of time steps of a run *)
Definition run_length (i : info) (procs : list proc) : nat :=
  Z.to_nat (tot_samples i + max_block_size i procs).
End RefDiag.
