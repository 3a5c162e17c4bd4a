(** Python / numpy primitives used by all models: integer-indexed sequences, slices,
    exceptions as values, dictionaries in insertion order.  Nothing here is specific to aspsim. *)
From Coq Require Export String ZArith List Bool Lia.
From Coq Require Export ZifyBool ZifyNat.
Export ListNotations.
Open Scope Z_scope.
Set Implicit Arguments.

(* ------------------------------------------------------------------ exceptions *)
Inductive exn : Type :=
| ValueError | IndexError | KeyError | AssertionError | NotImplementedError | TypeError
| ZeroDivisionError | StopIteration | AttributeError | FileNotFoundError | FileExistsError
| UnboundLocalError | MatchingSessionNotFoundError | EOFError | OutOfFuel.

(** Outcome of a Python call: a value or a raised exception. *)
Inductive res (A : Type) : Type :=
| Ok (a : A)
| Err (e : exn).
Arguments Ok {A} _.
Arguments Err {A} _.

Definition bind {A B} (m : res A) (k : A -> res B) : res B :=
  match m with Ok a => k a | Err e => Err e end.
Notation "x <- m ;; k" := (bind m (fun x => k)) (at level 60, m at next level, right associativity).
Notation "' p <- m ;; k" := (bind m (fun p => k)) (at level 60, p pattern, m at next level, right associativity).

(** [assert b] of Python. *)
Definition passert (b : bool) : res unit := if b then Ok tt else Err AssertionError.

(** [for x in l: acc = f acc x] where the body may raise. *)
Fixpoint foldM {A B} (f : A -> B -> res A) (acc : A) (l : list B) : res A :=
  match l with
  | [] => Ok acc
  | x :: r => a <- f acc x ;; foldM f a r
  end.

Fixpoint mapM {A B} (f : A -> res B) (l : list A) : res (list B) :=
  match l with
  | [] => Ok []
  | x :: r => y <- f x ;; ys <- mapM f r ;; Ok (y :: ys)
  end.

(* ------------------------------------------------------------------ sequences *)
Section Seqs.
Context {A : Type}.

Definition zlen (l : list A) : Z := Z.of_nat (length l).

(** Element at a non-negative position, [None] when out of range. *)
Definition zget (l : list A) (i : Z) : option A :=
  if i <? 0 then None else nth_error l (Z.to_nat i).

(** n copies of x (none if n <= 0). *)
Definition zrep (n : Z) (x : A) : list A := repeat x (Z.to_nat n).

(** Python's normalisation of a slice bound for a sequence of length n:
    negative bounds count from the end, everything is clipped to [0,n]. *)
Definition norm_idx (n i : Z) : Z := if i <? 0 then Z.max (i + n) 0 else Z.min i n.

(** l[a:b] *)
Definition pyslice (l : list A) (a b : Z) : list A :=
  let lo := norm_idx (zlen l) a in
  let hi := norm_idx (zlen l) b in
  firstn (Z.to_nat (hi - lo)) (skipn (Z.to_nat lo) l).

(** l[a:b] = new for numpy arrays along the last axis: the lengths must agree,
    except that a single frame is broadcast over the whole slice. *)
Definition pyslice_set (l : list A) (a b : Z) (new : list A) : res (list A) :=
  let lo := norm_idx (zlen l) a in
  let hi := norm_idx (zlen l) b in
  let n := Z.max 0 (hi - lo) in
  let put xs := firstn (Z.to_nat lo) l ++ xs ++ skipn (Z.to_nat (lo + n)) l in
  if zlen new =? n then Ok (put new)
  else match new with
       | [x] => Ok (put (zrep n x))
       | _ => Err ValueError
       end.

(** l[i] = x for an in-range non-negative index (unchanged otherwise). *)
Definition zset (l : list A) (i : Z) (x : A) : list A :=
  if (0 <=? i) && (i <? zlen l)
  then firstn (Z.to_nat i) l ++ x :: skipn (Z.to_nat (i + 1)) l else l.
End Seqs.

(** range(a, b) *)
Definition zrange (a b : Z) : list Z :=
  map (fun k => a + Z.of_nat k) (seq 0 (Z.to_nat (b - a))).

(** range(a, b, s) for s > 0 *)
Definition zrange_step (a b s : Z) : list Z :=
  map (fun k => a + s * Z.of_nat k) (seq 0 (Z.to_nat ((b - a + s - 1) / s))).

(* ------------------------------------------------------------------ dictionaries *)
Section Dicts.
Context {A : Type}.
Definition dict := list (string * A).

Fixpoint dget (d : dict) (k : string) : option A :=
  match d with
  | [] => None
  | (k', v) :: r => if String.eqb k k' then Some v else dget r k
  end.

(** d[k] = v : replaces in place or appends. *)
Fixpoint dset (d : dict) (k : string) (v : A) : dict :=
  match d with
  | [] => [(k, v)]
  | (k', v') :: r => if String.eqb k k' then (k, v) :: r else (k', v') :: dset r k v
  end.

Definition dkeys (d : dict) : list string := map fst d.
Definition dmem (d : dict) (k : string) : bool :=
  match dget d k with Some _ => true | None => false end.

(** d[k] with KeyError *)
Definition dgetE (d : dict) (k : string) : res A :=
  match dget d k with Some v => Ok v | None => Err KeyError end.
End Dicts.
Arguments dict : clear implicits.

(** x in l for lists of strings *)
Definition smem (x : string) (l : list string) : bool := existsb (String.eqb x) l.

(** Integers extended with +infinity (np.inf). *)
Inductive ext : Type := Fin (z : Z) | Inf.
(** e <= z for an integer z *)
Definition ext_leb (e : ext) (z : Z) : bool := match e with Fin x => x <=? z | Inf => false end.
