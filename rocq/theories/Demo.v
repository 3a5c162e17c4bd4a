(** A concrete world for the Examples: integer samples, arrays with one element at an integer
    position, sources that count upwards, a path that is a delay by the distance. *)
Require Import Verif.PyBase Verif.ConfigModel Verif.ArrayModel.

Definition demo : AEnv := {|
  V := Z; v0 := 0; v1 := 1; vadd := Z.add; vmul := Z.mul;
  Pos := Z; Src := Z;
  src_get := fun s n => (s + n, map (fun k => [k]) (zrange s (s + n)));
  G := Z;
  np_normal := fun g _ _ _ => (g + 1, fun i j k => 100 * g + 10 * i + j + k);
  ism3d := fun par g p q => Ok (g, mkPath 1 1 (rp_len par) (fun _ _ k => if k =? Z.abs (p - q) then 1 else 0));
  filter_rirs := fun p _ _ => p |}.

Definition demo_info : info :=
  mkInfo 12 10 5 false true 4 100 343 3 "ism" [1; 1; 1] [0; 0; 0] 1 8 false 0 0 6 "pdf" 1 false.

(** for Examples: evaluate only what is observed *)
Definition is_ok {A} (r : res A) : bool := match r with Ok _ => true | Err _ => false end.
Definition get {A B} (r : res A) (f : A -> B) : option B := match r with Ok a => Some (f a) | Err _ => None end.
Lemma is_ok_ex {A} (r : res A) : is_ok r = true -> exists a, r = Ok a.
Proof. destruct r; simpl; [eauto|discriminate]. Qed.
Lemma get_ex {A B} (r : res A) (f : A -> B) b : get r f = Some b -> exists a, r = Ok a /\ f a = b.
Proof. destruct r; simpl; [|discriminate]. intros H; inversion H; eauto. Qed.
