(** Model of attritemgetter (src/aspsim/diagnostics/core.py 458-483). *)
Require Import Verif.PyBase Verif.PyStr.
Set Implicit Arguments.
Local Open Scope string_scope.
Local Open Scope list_scope.
Local Open Scope Z_scope.

(** s.replace(c, "") *)
Fixpoint remove_char (c : ascii) (s : string) : string :=
  match s with EmptyString => EmptyString | String x r => if Ascii.eqb x c then remove_char c r else String x (remove_char c r) end.
(** s.split(c) *)
Fixpoint split_on (c : ascii) (s : string) : list string :=
  match s with
  | EmptyString => [""%string]
  | String x r => if Ascii.eqb x c then ""%string :: split_on c r
                  else match split_on c r with h :: t => String x h :: t | [] => [String x ""] end
  end.
(** s[-1] == c for a string that is not empty *)
Fixpoint ends_with (c : ascii) (s : string) : bool :=
  match s with EmptyString => false | String x EmptyString => Ascii.eqb x c | String _ r => ends_with c r end.
(** int(s) with an optional minus sign; a plus sign, spaces and underscores (which int also accepts) are left out *)
Definition int_of (s : string) : res Z :=
  match s with
  | String x r => if Ascii.eqb x "-" then (n <- py_int r ;; Ok (- n)) else py_int s
  | EmptyString => Err ValueError
  end.

(** What an object is indexed with *)
Inductive key := KStr (s : string) | KInt (n : Z).
(** core.py 475-480: an item between brackets *)
Definition parse_item (item : string) : res key :=
  match item with
  | EmptyString => Err IndexError
  | String c _ => if Ascii.eqb c "'" then (if ends_with "'" item then Ok (KStr (remove_char "'" item)) else Err ValueError)
                  else (n <- int_of item ;; Ok (KInt n))
  end.

Section Getter.
(** python objects; getattr(obj, name) and obj[key] *)
Context {O : Type} (getattr : O -> string -> res O) (getitem : O -> key -> res O).

(** core.py 474-481: the loop over the items *)
Fixpoint get_items (items : list string) (obj : O) : res O :=
  match items with
  | [] => Ok obj
  | item :: r => k <- parse_item item ;; obj <- getitem obj k ;; get_items r obj
  end.
(** core.py 471-482: the loop over the attributes *)
Fixpoint get_all (attributes : list (list string)) (obj : O) : res O :=
  match attributes with
  | [] => Ok obj
  | [] :: r => Err IndexError
  | (name :: items) :: r => obj <- getattr obj name ;; obj <- get_items items obj ;; get_all r obj
  end.
(** core.py 458-483 *)
Definition attritemgetter (name : string) : res (O -> res O) :=
  match name with
  | EmptyString => Err IndexError
  | String c _ =>
      _ <- passert (negb (Ascii.eqb c "[")) ;;
      let attributes := remove_char "]" name in
      let attributes := split_on "." attributes in
      let attributes := map (split_on "[") attributes in
      Ok (get_all attributes)
  end.
End Getter.
