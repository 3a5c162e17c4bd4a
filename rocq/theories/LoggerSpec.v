(** Vocabulary for statements about saving and exporting diagnostics. *)
Require Import Verif.PyBase.
Set Implicit Arguments.

(** time indices of a list of intervals, in order *)
Definition times (l : list (Z * Z)) : list Z := flat_map (fun iv => zrange (fst iv) (snd iv)) l.

(** non-empty, increasing, disjoint intervals starting at [lo] or later *)
Fixpoint ivs_ok (lo : Z) (l : list (Z * Z)) : Prop :=
  match l with
  | [] => True
  | (s, e) :: r => lo <= s /\ s < e /\ ivs_ok e r
  end.

(** (a,b) lies within one of the intervals *)
Definition inside (l : list (Z * Z)) (t : Z * Z) : Prop :=
  exists iv, In iv l /\ fst iv <= fst t /\ snd t <= snd iv.

(** the leading export indices that do not exceed [saved] *)
Fixpoint due (x : list Z) (saved : Z) : list Z :=
  match x with
  | e :: r => if e <=? saved then e :: due r saved else []
  | [] => []
  end.
Fixpoint not_due (x : list Z) (saved : Z) : list Z :=
  match x with
  | e :: r => if e <=? saved then not_due r saved else x
  | [] => []
  end.

(** the save calls up to and including the first that reaches time e *)
Fixpoint tiles_until (e : Z) (ts : list (Z * Z)) : list (Z * Z) :=
  match ts with
  | [] => []
  | t :: r => if e <=? snd t then [t] else t :: tiles_until e r
  end.

(** end of the last save call, 0 if there was none *)
Fixpoint last_end (ts : list (Z * Z)) : Z :=
  match ts with
  | [] => 0
  | [t] => snd t
  | _ :: r => last_end r
  end.

Fixpoint nondecreasing (x : list Z) : Prop :=
  match x with
  | e :: ((e' :: _) as r) => e <= e' /\ nondecreasing r
  | _ => True
  end.

(** the exports of one diagnostic in the log *)
Definition exports_of {Out} (name : string) (out : list (string * Z * Out)) : list (Z * Out) :=
  map (fun x => (snd (fst x), snd x)) (filter (fun x => String.eqb (fst (fst x)) name) out).
