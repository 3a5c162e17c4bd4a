(** Model of src/aspsim/counter.py: EventCounter and PhaseCounter. *)
Require Import Verif.PyBase.
Set Implicit Arguments.

(* ------------------------------------------------------------------ EventCounter *)
(** counter.py 109-116 (EventCounter.__init__): attributes event_def (a dict name -> (freq, offset)), event, idx.
    The attributes freq and offset are never read again and are left out. *)
Record evc := mkEvc { ev_def : dict (Z * Z); ev_event : list string; ev_idx : Z }.
(** counter.py 109-116 *)
Definition evc_init (d : dict (Z * Z)) : evc := mkEvc d [] 0.
(** counter.py 118-119 (add_event) *)
Definition evc_add (c : evc) (name : string) (freq offset : Z) : evc := mkEvc (dset (ev_def c) name (freq, offset)) (ev_event c) (ev_idx c).
(** counter.py 121-125 (_check_events); the remainder by 0 raises ZeroDivisionError *)
Definition evc_check (c : evc) : res evc :=
  ev <- foldM (fun acc kd => let '(name, (freq, offset)) := kd in
                if freq =? 0 then Err ZeroDivisionError
                else if (ev_idx c - offset) mod freq =? 0 then Ok (acc ++ [name]) else Ok acc) [] (ev_def c) ;;
  Ok (mkEvc (ev_def c) ev (ev_idx c)).
(** counter.py 127-129 (progress) *)
Definition evc_progress (c : evc) : res evc := evc_check (mkEvc (ev_def c) (ev_event c) (ev_idx c + 1)).

(* ------------------------------------------------------------------ PhaseCounter *)
Definition ext_add (a b : ext) : ext := match a, b with Fin x, Fin y => Fin (x + y) | _, _ => Inf end.
Definition ext_pos (a : ext) : bool := match a with Fin x => 0 <? x | Inf => true end.
(** np.cumsum *)
Fixpoint cumsum (acc : ext) (l : list ext) : list ext :=
  match l with [] => [] | x :: r => ext_add acc x :: cumsum (ext_add acc x) r end.
(** attributes of a PhaseCounter: start_idxs (public, a dict whose last key may be None), phase, first_sample, idx and
    the two queues _phase_names, _start_idxs *)
Record phc := mkPhc {
  ph_starts : list (option string * ext);
  ph_phase : option string; ph_first : bool; ph_idx : Z;
  ph_names : list string; ph_next : list ext }.
(** counter.py 66-77 (next_phase); list.pop(0) on an empty list raises IndexError.  The prints are left out. *)
Definition phc_next_phase (c : phc) : res phc :=
  match ph_names c with
  | [] => Err IndexError
  | nm :: names =>
    match ph_next c with
    | [] => Err IndexError
    | _ :: nx => Ok (mkPhc (ph_starts c) (Some nm) true (ph_idx c) names (match nx with [] => [Inf] | _ => nx end))
    end
  end.
(** counter.py 34-64 (__init__).  Lengths are integers or inf; a negative length counts as inf (line 45).  phase_lengths is
    a dict, so its names are distinct and the dict of line 58 has one entry per zipped pair. *)
Definition phc_init (phase_lengths : dict ext) : res phc :=
  let lens := map (fun kl => (fst kl, match snd kl with Fin z => if 0 <=? z then Fin z else Inf | Inf => Inf end)) phase_lengths in
  let starts := Fin 0 :: cumsum (Fin 0) (map snd lens) in
  let names := map (fun kl => Some (fst kl)) lens in
  let '(names, starts) := match last starts Inf with Fin _ => (names ++ [None], starts) | Inf => (names, removelast starts) end in
  let start_idxs := combine names starts in
  let queue := map fst (filter (fun kl => ext_pos (snd kl)) lens) in
  let squeue := map fst (filter (fun sl => ext_pos (snd sl)) (combine (map snd start_idxs) (map snd lens))) in
  phc_next_phase (mkPhc start_idxs None true 0 queue squeue).
(** counter.py 79-84 (progress); _start_idxs[0] of an empty list would raise IndexError *)
Definition phc_progress (c : phc) : res phc :=
  let c := mkPhc (ph_starts c) (ph_phase c) (ph_first c) (ph_idx c + 1) (ph_names c) (ph_next c) in
  match ph_next c with
  | [] => Err IndexError
  | s :: _ => if ext_leb s (ph_idx c) then phc_next_phase c
              else Ok (mkPhc (ph_starts c) (ph_phase c) false (ph_idx c) (ph_names c) (ph_next c))
  end.
(** counter.py 86-87 (current_phase_is) *)
Definition phc_current_phase_is (c : phc) (name : option string) : bool :=
  match ph_phase c, name with Some a, Some b => String.eqb a b | None, None => true | _, _ => false end.
