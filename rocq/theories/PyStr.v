(** Python string primitives on ASCII strings: str(int), isdigit, int, slices, rpartition, pathlib's stem and suffix. *)
Require Import Verif.PyBase.
From Coq Require Export Ascii.
Set Implicit Arguments.
Local Open Scope string_scope.
Local Open Scope Z_scope.

Definition slen (s : string) : Z := Z.of_nat (String.length s).
(** s[:n] for 0 <= n *)
Definition sprefix (s : string) (n : Z) : string := substring 0 (Z.to_nat n) s.
(** s[n:] for 0 <= n *)
Definition sdrop (s : string) (n : Z) : string := substring (Z.to_nat n) (String.length s - Z.to_nat n) s.
(** s.startswith(p) *)
Definition startswith (s p : string) : bool := String.prefix p s.

Definition digit (d : Z) : ascii := ascii_of_nat (48 + Z.to_nat d).
Definition digit_val (c : ascii) : Z := Z.of_nat (nat_of_ascii c) - 48.
Definition is_digit (c : ascii) : bool := (0 <=? digit_val c) && (digit_val c <=? 9).
(** decimal representation; [fuel] bounds the number of digits *)
Fixpoint str_digits (fuel : nat) (n : Z) (acc : string) : string :=
  match fuel with
  | O => acc
  | S k => let acc := String (digit (n mod 10)) acc in if n <? 10 then acc else str_digits k (n / 10) acc
  end.
(** str(n) *)
Definition py_str (n : Z) : string :=
  if n <? 0 then "-" ++ str_digits (S (Z.to_nat (Z.log2 (- n)))) (- n) "" else str_digits (S (Z.to_nat (Z.log2 n))) n "".
Fixpoint all_digits (s : string) : bool := match s with EmptyString => true | String c r => is_digit c && all_digits r end.
(** s.isdigit() *)
Definition isdigit (s : string) : bool := match s with EmptyString => false | _ => all_digits s end.
Fixpoint digits_val (v : Z) (s : string) : Z := match s with EmptyString => v | String c r => digits_val (v * 10 + digit_val c) r end.
(** int(s) of a string of digits; a sign or spaces (which int also accepts) are left out *)
Definition py_int (s : string) : res Z := if isdigit s then Ok (digits_val 0 s) else Err ValueError.

(** the parts before and after the last character c *)
Fixpoint rsplit (c : ascii) (s : string) : option (string * string) :=
  match s with
  | EmptyString => None
  | String x r => match rsplit c r with
                  | Some (a, b) => Some (String x a, b)
                  | None => if Ascii.eqb x c then Some ("", r) else None
                  end
  end.
(** pathlib.PurePath.stem and .suffix of a file name: a suffix starts at the last dot unless that is the first or the last character *)
Definition stem_suffix (s : string) : string * string :=
  match rsplit "." s with
  | Some (a, b) => if (String.eqb a "" || String.eqb b "")%bool then (s, "") else (a, "." ++ b)
  | None => (s, "")
  end.
Definition path_stem (s : string) : string := fst (stem_suffix s).
Definition path_suffix (s : string) : string := snd (stem_suffix s).
(** s.split(c)[-1] *)
Definition last_part (c : ascii) (s : string) : string := match rsplit c s with Some (_, b) => b | None => s end.
