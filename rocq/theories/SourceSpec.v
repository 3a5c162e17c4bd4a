(** What it means for a source to play a given signal, however the samples are requested. *)
Require Import Verif.PyBase.
Set Implicit Arguments.
Local Open Scope list_scope.
Local Open Scope Z_scope.

Section Playing.
Context {V S : Type} (get : S -> Z -> res (list (list V) * S)).
(** all requests of a list, one after the other *)
Fixpoint request_all (s : S) (ns : list Z) : res (list (list (list V)) * S) :=
  match ns with
  | [] => Ok ([], s)
  | n :: ns => r <- get s n ;; rs <- request_all (snd r) ns ;; Ok (fst r :: fst rs, snd rs)
  end.
(** n samples from time t on of the signal f with the given number of channels *)
Definition piece (channels : Z) (f : Z -> Z -> V) (t n : Z) : list (list V) := map (fun c => map (fun k => f c (t + k)) (zrange 0 n)) (zrange 0 channels).
(** consecutive pieces *)
Fixpoint cut (channels : Z) (f : Z -> Z -> V) (t : Z) (ns : list Z) : list (list (list V)) :=
  match ns with [] => [] | n :: ns => piece channels f t n :: cut channels f (t + n) ns end.
(** from state s on, the source plays f: any sequence of requests gives the consecutive pieces of f *)
Definition plays (channels : Z) (f : Z -> Z -> V) (s : S) : Prop :=
  forall ns, Forall (fun n => 0 <= n) ns -> exists s', request_all s ns = Ok (cut channels f 0 ns, s').
(** all samples of one channel *)
Definition channel (outs : list (list (list V))) (c : Z) : list V := flat_map (fun sig => match zget sig c with Some row => row | None => [] end) outs.
(** sample of an array, [d] outside of it *)
Definition sample (d : V) (sig : list (list V)) (c k : Z) : V := match zget sig c with Some row => match zget row k with Some x => x | None => d end | None => d end.
End Playing.
(** an array with n samples in every channel *)
Definition rectangular {V} (sig : list (list V)) (n : Z) : Prop := forall row, In row sig -> zlen row = n.
(** the k-th number a generator yields *)
Fixpoint rng_at {V G} (draw : G -> V * G) (g : G) (k : nat) : G := match k with O => g | S k => rng_at draw (snd (draw g)) k end.
Definition number {V G} (draw : G -> V * G) (g : G) (k : Z) : V := fst (draw (rng_at draw g (Z.to_nat k))).
(** the outputs of a filter *)
Fixpoint filtered {V F} (fstep : F -> V -> V * F) (f : F) (x : list V) : list V :=
  match x with [] => [] | v :: x => fst (fstep f v) :: filtered fstep (snd (fstep f v)) x end.
(** one number for all channels, or one for each *)
Definition one_or_each {V} (d : V) (l : list V) (c : Z) : V := match l with [a] => a | _ => match zget l c with Some x => x | None => d end end.
(** The input of the filter of channel c: for every request, the generator yields the numbers of channel 0 first, then those of channel 1 and so on;
    [o] is the position of the generator *)
Fixpoint noise_input {V G} (vmul : V -> V -> V) (draw : G -> V * G) (g : G) (scale : V) (channels c o : Z) (ns : list Z) : list V :=
  match ns with
  | [] => []
  | n :: ns => map (fun k => vmul scale (number draw g (o + c * n + k))) (zrange 0 n) ++ noise_input vmul draw g scale channels c (o + channels * n) ns
  end.
(** the bits of a shift register that starts with ones *)
Definition register (order : Z) (taps : list Z) (x : Z -> bool) : Prop :=
  (forall n, 0 <= n < order -> x n = true) /\ forall n, 0 <= n -> x (n + order) = fold_left (fun b t => xorb b (x (n + t))) taps (x n).
Definition sign (b : bool) : Z := if b then 1 else -1.
