(** An observer among the diagnostics: it records every save call it receives and exports its log. *)
Require Import Verif.PyBase Verif.ConfigModel Verif.ArrayModel Verif.LoggerModel Verif.SimModel.
Set Implicit Arguments.

Section Observer.
Context {E : AEnv}.
Variables PS0 D1 Out1 : Type.
Variable dsave1 : D1 -> option PS0 -> dict (list frame) -> Z * Z -> res D1.
Variable dout1 : D1 -> Z -> res Out1.
(** one save call: the interval of global time indices, the processor, the samples handed over *)
Record call := mkCall { k_iv : Z * Z; k_proc : option PS0; k_view : dict (list frame) }.
(** a diagnostic is an observer, or any other diagnostic *)
Definition log_save (d : list call + D1) (p : option PS0) (v : dict (list frame)) (g : Z * Z) : res (list call + D1) :=
  match d with
  | inl log => Ok (inl (log ++ [mkCall g p v]))
  | inr d => x <- dsave1 d p v g ;; Ok (inr x)
  end.
Definition log_out (d : list call + D1) (e : Z) : res (list call + Out1) :=
  match d with inl log => Ok (inl log) | inr d => o <- dout1 d e ;; Ok (inr o) end.
Definition observed : SEnv := @mkSEnv E PS0 (list call + D1) (list call + Out1) log_save log_out.
End Observer.
Arguments call {E} PS0.
Arguments mkCall {E PS0} _ _ _.
