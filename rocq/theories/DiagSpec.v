(** Vocabulary for statements about what diagnostics store and export. *)
Require Import Verif.PyBase Verif.ConfigModel Verif.ArrayModel Verif.LoggerModel Verif.LoggerSpec Verif.SimModel Verif.SimSpec Verif.DiagModel.
Set Implicit Arguments.

(** the multiples of f up to tot, and the unit intervals that end there *)
Definition multiples (f tot : Z) : list Z := map (fun k => k * f) (zrange 1 (tot / f + 1)).
Definition unit_ivs (l : list Z) : list (Z * Z) := map (fun e => (e - 1, e)) l.

(** strictly increasing, from above lo *)
Fixpoint increasing_from (lo : Z) (l : list Z) : Prop :=
  match l with [] => True | e :: r => lo < e /\ increasing_from e r end.

Section Spec.
Context {E : AEnv}.
(** the selected channels of a frame, all of them when there is no selection; negative indices count from the end *)
Definition selected (chans : option (list Z)) (x y : frame) : Prop :=
  match chans with
  | None => y = x
  | Some l => Forall2 (fun ch v => zget x (if ch <? 0 then ch + zlen x else ch) = Some v) l y
  end.
(** a column of num rows holding y; a single value fills all rows *)
Definition fills (num : Z) (y f : frame) : Prop :=
  (zlen y = num /\ f = y) \/ exists v, y = [v] /\ f = zrep num v.
(** what is stored of the frame x *)
Definition column (chans : option (list Z)) (num : Z) (x f : frame) : Prop :=
  exists y, selected chans x y /\ fills num y f.
(** the store holds at time t a column with [val t], for every t of [ts], and NaN at all other times *)
Definition holds (val : Z -> frame -> Prop) (ts : list Z) (cols : columns) : Prop :=
  forall t, 0 <= t < zlen cols ->
    (In t ts -> exists f, val t f /\ zget cols t = Some (Some f)) /\
    (~ In t ts -> zget cols t = Some None).
(** the stored values with their times, in order *)
Fixpoint stored_pairs (cols : columns) (times : list Z) : list (frame * Z) :=
  match cols, times with
  | Some v :: c, t :: r => (v, t) :: stored_pairs c r
  | None :: c, t :: r => stored_pairs c r
  | _, _ => []
  end.
End Spec.
