(** Model of src/aspsim/processor.py: DebugProcessor, and a processor wrapped so that it keeps a log of its calls. *)
Require Import Verif.PyBase Verif.ConfigModel Verif.ArrayModel Verif.LoggerModel Verif.SimModel.
Set Implicit Arguments.

Section Debug.
Context {E : AEnv}.
(** processor.py 39-48: what DebugProcessor.__init__ creates.  [dp_mic] and [dp_ls] are arrays of shape
    (num, tot_samples), here lists of columns.  The filter [filt] only has its response changed (62) and is never
    used: left out. *)
Record debug_state := mkDebug { dp_processed : Z; dp_idx : Z; dp_mic : list frame; dp_ls : list frame }.
Definition debug_init (num_mic num_ls tot : Z) : debug_state :=
  mkDebug 0 0 (zrep tot (zeros num_mic)) (zrep tot (zeros num_ls)).

(** processor.py 55-59: one round of the loop; [x] and [y] are the columns of the two signals at index i *)
Definition debug_round (tot : Z) (s : debug_state) (r : Z * (frame * frame)) : debug_state :=
  let '(manual_i, (x, y)) := r in
  if manual_i <? tot then
    mkDebug (dp_processed s) (dp_idx s + 1) (zset (dp_mic s) manual_i x) (zset (dp_ls s) manual_i y)
  else s.
(** processor.py 51-62: process(num_samples), as a function of the frames idx-num_samples .. idx-1 of the
    signals; the frames returned are assigned to sig["loudspeaker"][:, idx:idx+num_samples].  The columns read
    by the loop lie before idx and are not changed by that assignment. *)
Definition debug_process (tot n : Z) (s : debug_state) (w : dict (list frame)) : debug_state * dict (list frame) :=
  match dget w "mic"%string, dget w "loudspeaker"%string with
  | Some x, Some y =>
    let s' := fold_left (debug_round tot) (combine (zrange (dp_idx s) (dp_idx s + n)) (combine x y)) s in
    (mkDebug (dp_processed s' + n) (dp_idx s') (dp_mic s') (dp_ls s'), [("loudspeaker"%string, x)])
  | _, _ => (s, [])                       (* the constructor has already raised KeyError *)
  end.
End Debug.

(** Not code of aspsim: any processor, given by what a call does, that also keeps what every call was handed and
    what it returned. *)
Section Spy.
Context {E : AEnv}.
Variables (PS1 D0 Out0 : Type).
Definition spied : Type := (PS1 * list (dict (list frame) * dict (list frame)))%type.
Variable dsave0 : D0 -> option spied -> dict (list frame) -> Z * Z -> res D0.
Variable dout0 : D0 -> Z -> res Out0.
Definition spy (bs hist : Z) (locals : list (string * Z)) (step : PS1 -> dict (list frame) -> PS1 * dict (list frame)) (s0 : PS1)
    : @proc E (mkSEnv dsave0 dout0) :=
  @mkProc E (mkSEnv dsave0 dout0) bs hist locals
    (fun s w => let '(s1, o) := step (fst s) w in ((s1, snd s ++ [(w, o)]), o)) (s0, []).
End Spy.
