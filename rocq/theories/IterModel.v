(** Model of small methods: walking over an ArrayCollection (src/aspsim/array.py 56-61, 111-114, 137-141), adding processors
    to a Simulator (src/aspsim/simulator.py 241-252) and setting the power of a Gold sequence source
    (src/aspsim/signal/sources.py 476-486). *)
Require Import Verif.PyBase Verif.ConfigModel Verif.ArrayModel Verif.SourceModel.
Set Implicit Arguments.

Section Iter.
Context {E : AEnv}.
Notation arr := (arr Pos Src).
Notation coll := (coll E).

(** array.py 56-58 (__iter__) *)
Definition coll_iter (c : coll) : list arr := map snd (c_arrays c).
(** array.py 60-61 (__contains__) *)
Definition coll_contains (c : coll) (name : string) : bool := dmem (c_arrays c) name.
(** array.py 111-114 (empty) *)
Definition coll_empty (c : coll) : bool := zlen (c_arrays c) =? 0.
(** array.py 137-141 (iter_paths): a generator; what it yields and, at the end, how it stops.  The collection is not changed
    while the generator is in use. *)
Fixpoint yield_paths (c : coll) (names : list (string * string)) : list (arr * arr * path V) * res unit :=
  match names with
  | [] => ([], Ok tt)
  | (src_name, mic_name) :: rest =>
    match (s <- dgetE (c_arrays c) src_name ;; m <- dgetE (c_arrays c) mic_name ;; p <- dget2E (c_paths c) src_name mic_name ;; Ok (s, m, p)) with
    | Ok x => let '(l, r) := yield_paths c rest in (x :: l, r)
    | Err e => ([], Err e)
    end
  end.
Definition iter_paths (c : coll) : list (arr * arr * path V) * res unit := yield_paths c (list_prod (c_src c) (c_mic c)).
End Iter.

Section Add.
Context {P : Type}.
(** the argument of add_processor: an object, and what iterating over it gives: None if it cannot be iterated over, otherwise the
    items and the exception that the iteration ends with, if any *)
Record processor_arg := mkArg { pa_object : P; pa_items : option (list P * option exn) }.
(** simulator.py 241-252 (add_processor).  list.extend keeps the items it got before an exception. *)
Definition add_processor (procs : list P) (a : processor_arg) : list P * res unit :=
  match pa_items a with
  | None => (procs ++ [pa_object a], Ok tt)
  | Some (l, None) => (procs ++ l, Ok tt)
  | Some (l, Some TypeError) => ((procs ++ l) ++ [pa_object a], Ok tt)
  | Some (l, Some e) => (procs ++ l, Err e)
  end.
(** a script that adds processors; an exception ends it *)
Fixpoint add_processors (procs : list P) (l : list processor_arg) : list P * res unit :=
  match l with
  | [] => (procs, Ok tt)
  | a :: r => match add_processor procs a with (procs', Ok _) => add_processors procs' r | (procs', Err e) => (procs', Err e) end
  end.
End Add.
Arguments processor_arg : clear implicits.

Section GoldPower.
Context {V : Type} (sqrt : V -> V).
(** the argument newPower: an int or a float, an ndarray (its shape and its values, the last index running fastest), or an object without ndim *)
Inductive power_arg := Number (v : V) | NdArray (shape : list Z) (values : list V) | NoArray.
(** sources.py 476-486 (set_power): self.power, an array with one column, given by its rows.  Values of an array with no axes are a list of one. *)
Definition power_column (a : power_arg) : res (list V) :=
  match a with
  | Number v => Ok [v]
  | NoArray => Err AttributeError
  | NdArray shape values =>
    match shape with
    | [] => Ok values
    | [_] => Ok values
    | [_; columns] => _ <- passert (columns =? 1) ;; Ok values
    | _ => Err ValueError
    end
  end.
(** sources.py 486: self.amplitude; the position in the sequence stays *)
Definition gold_set_power (s : @gold V) (a : power_arg) : res (@gold V) :=
  p <- power_column a ;; Ok (mkGold (gd_sequences s) (gd_len s) (map sqrt p) (gd_idx s)).
(** sources.py 429-462 (__init__) with the argument power as it is given *)
Definition gold_new (num_channels : Z) (power : power_arg) (order : Z) : res (@gold V) :=
  _ <- passert (num_channels <=? 2 ^ order - 1) ;;
  p <- power_column power ;;
  gold_init sqrt num_channels p order.
End GoldPower.
