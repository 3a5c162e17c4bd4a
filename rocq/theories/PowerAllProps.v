(** C138: the power diagnostics of all signals of a processor. *)
Require Import Verif.PyBase Verif.PyLemmas Verif.CallModel Verif.CallProps Verif.PowerAllModel.
Set Implicit Arguments.
Local Open Scope string_scope.

(* ------------------------------------------------------------------ specification *)
Section Spec.
Variable X : Type.
(** the settings of a diagnostic: the one given, and otherwise those that a signal diagnostic has without any keyword *)
Definition settings_of_power (info : val X) (export_at f : val X) : list (string * val X) :=
  [("sim_info", info); ("export_at", export_at); ("save_at", VWhole); ("export_func", VStr "plot"); ("keep_only_last_export", VBool false); ("export_kwargs", VNone); ("preprocess", f)].
(** a diagnostic of the power for each of these signals, in their order *)
Definition one_each (signals : list string) (settings : list (string * val X)) : list (string * (string * list (string * val X))) :=
  map (fun n => ("power_" ++ n, (n, settings))) signals.
End Spec.

(* ------------------------------------------------------------------ proofs *)
Lemma power_call X (name info b f : val X) : signal_power [name; info; b] [("preprocess", f)] = Ok (settings_of_power info b f).
Proof. reflexivity. Qed.
Lemma prefix_inj (a b : string) : "power_" ++ a = "power_" ++ b -> a = b.
Proof. cbn. congruence. Qed.
Lemma smem_in k l : smem k l = true <-> In k l.
Proof.
  induction l as [|x l IH]; cbn; [split; [discriminate|tauto]|]. destruct (String.eqb_spec k x) as [->|N]; cbn; [tauto|].
  rewrite IH. split; [tauto|intros [->|H]; tauto].
Qed.
Section All.
Context {X : Type} (preprocess : val X -> res (val X)).
Lemma loop_adds (p : processor X) f : preprocess (p_info p) = Ok f ->
  forall signals ds, NoDup signals -> (forall n, In n signals -> ~ In ("power_" ++ n) (map fst ds)) ->
  power_loop preprocess signals p (Some ds) = (Some (ds ++ one_each signals (settings_of_power (p_info p) (p_block_size p) f))%list, Ok tt).
Proof.
  intros F. induction signals as [|n rest IH]; intros ds D N.
  - cbn [power_loop one_each map]. rewrite app_nil_r. reflexivity.
  - cbn [power_loop]. rewrite F. cbn [bind]. rewrite power_call. cbn [bind]. unfold add_diagnostic.
    destruct (smem ("power_" ++ n) (dkeys ds)) eqn:E. { apply smem_in in E. exfalso. apply (N n); [left; auto|exact E]. }
    inversion D as [|? ? D1 D2]; subst. rewrite IH; auto.
    + rewrite <- app_assoc. reflexivity.
    + intros m Hm. rewrite map_app, in_app_iff. intros [H|[H|[]]]; [apply (N m); [right|]; auto|]. cbn [fst] in H. apply prefix_inj in H. subst. auto.
Qed.
(** C138.  A processor that has a handler of diagnostics, in which none of the names is taken: one diagnostic is added for each signal, in the
    order of the signals and after the diagnostics that are there; it measures the power of that signal over the whole simulation. *)
Theorem C138_all_partial (p : processor X) ds f : p_diag p = Some ds -> preprocess (p_info p) = Ok f -> NoDup (p_signals p) -> (forall n, In n (p_signals p) -> ~ In ("power_" ++ n) (map fst ds)) ->
  power_of_all_signals preprocess p = (Some (ds ++ one_each (p_signals p) (settings_of_power (p_info p) (p_block_size p) f))%list, Ok tt).
Proof. intros D F. unfold power_of_all_signals. rewrite D. apply loop_adds. auto. Qed.
(** C138.  A name that is taken: the signals before it have their diagnostics, the one of this name is left as it is, and the rest is not reached. *)
Theorem C138_taken (p : processor X) ds f before n after : p_diag p = Some ds -> preprocess (p_info p) = Ok f -> p_signals p = (before ++ n :: after)%list -> NoDup (p_signals p) ->
  (forall m, In m before -> ~ In ("power_" ++ m) (map fst ds)) -> In ("power_" ++ n) (map fst ds) ->
  power_of_all_signals preprocess p = (Some (ds ++ one_each before (settings_of_power (p_info p) (p_block_size p) f))%list, Err AssertionError).
Proof.
  intros D F S U B T. unfold power_of_all_signals. rewrite D, S. rewrite S in U. clear D S.
  revert ds B T. induction before as [|m rest IH]; intros ds B T.
  - cbn [app power_loop one_each map]. rewrite F. cbn [bind]. rewrite power_call. cbn [bind]. unfold add_diagnostic.
    rewrite (proj2 (smem_in ("power_" ++ n) (dkeys ds)) T). rewrite app_nil_r. reflexivity.
  - cbn [app power_loop]. rewrite F. cbn [bind]. rewrite power_call. cbn [bind]. unfold add_diagnostic.
    destruct (smem ("power_" ++ m) (dkeys ds)) eqn:E. { apply smem_in in E. exfalso. apply (B m); [left; auto|exact E]. }
    cbn [app] in U. inversion U as [|? ? U1 U2]; subst. rewrite IH; auto.
    + rewrite <- app_assoc. reflexivity.
    + intros k Hk. rewrite map_app, in_app_iff. intros [H|[H|[]]]; [apply (B k); [right|]; auto|]. cbn [fst] in H. apply prefix_inj in H. subst. apply U1. apply in_or_app. auto.
    + rewrite map_app, in_app_iff. auto.
Qed.
(** C138 is false as it stands.  A processor as its constructor makes it has no handler, so the function fails with the first signal; and
    with a handler the diagnostics are exported at the block size, not at the times that signal diagnostics are exported at unless one asks for others
    (no export_at at all, for which Diagnostic takes the frequency of the configuration). *)
Theorem C138_handler_refuted signals info b : signals <> [] -> power_of_all_signals preprocess (new_processor signals info b) = (None, Err AttributeError).
Proof. intros H. destruct signals; [congruence|reflexivity]. Qed.
Theorem C138_export_refuted (p : processor X) ds f n : p_diag p = Some ds -> preprocess (p_info p) = Ok f -> p_signals p = [n] -> ~ In ("power_" ++ n) (map fst ds) -> p_block_size p <> VNone ->
  exists settings plain, fst (power_of_all_signals preprocess p) = Some (ds ++ [(("power_" ++ n)%string, (n, settings))])%list /\
    signal_power [VStr n; p_info p] [("preprocess", f)] = Ok plain /\
    dget settings "export_at" = Some (p_block_size p) /\ dget plain "export_at" = Some VNone /\ settings <> plain.
Proof.
  intros D F S N B. eexists. eexists. split; [|split; [reflexivity|]].
  - rewrite (C138_all_partial p D F); rewrite S; [reflexivity| |].
    + constructor; [intros []|constructor].
    + intros m [<-|[]]. auto.
  - split; [reflexivity|]. split; [reflexivity|]. unfold settings_of_power. intros E. injection E as E. auto.
Qed.
End All.

(* ------------------------------------------------------------------ examples *)
Definition some_prep (info : val Z) : res (val Z) := Ok (VObj 7%Z).
Definition some_processor (ds : list (string * added Z)) : processor Z := mkProcessor ["mic"; "loudspeaker"] (VObj 0%Z) (VObj 64%Z) (Some ds).
Example C138_all_meets : p_diag (some_processor []) = Some [] /\ some_prep (VObj 0%Z) = Ok (VObj 7%Z) /\ NoDup (p_signals (some_processor [])) /\
  exists s, power_of_all_signals some_prep (some_processor []) = (Some [("power_mic", ("mic", s)); ("power_loudspeaker", ("loudspeaker", s))], Ok tt) /\ dget s "export_at" = Some (VObj 64%Z).
Proof.
  split; [reflexivity|]. split; [reflexivity|]. split. { constructor; [intros [H|[]]; discriminate|]. constructor; [intros []|constructor]. }
  eexists. split; reflexivity.
Qed.
Definition taken_one : list (string * added Z) := [("power_loudspeaker", ("loudspeaker", []))].
Example C138_taken_meets : p_signals (some_processor taken_one) = (["mic"] ++ "loudspeaker" :: [])%list /\ In "power_loudspeaker" (map fst taken_one) /\
  exists s, power_of_all_signals some_prep (some_processor taken_one) = (Some [("power_loudspeaker", ("loudspeaker", [])); ("power_mic", ("mic", s))], Err AssertionError).
Proof. split; [reflexivity|]. split; [left; reflexivity|]. eexists. reflexivity. Qed.
Example C138_refuted_meets : ["mic"] <> [] /\ (VObj 64%Z : val Z) <> VNone /\ ~ In "power_mic" (map fst ([] : list (string * added Z))) /\
  p_signals (mkProcessor (X := Z) ["mic"] (VObj 0%Z) (VObj 64%Z) (Some [])) = ["mic"].
Proof. split; [discriminate|]. split; [discriminate|]. split; [intros []|reflexivity]. Qed.
Print Assumptions C138_all_partial.
Print Assumptions C138_taken.
Print Assumptions C138_handler_refuted.
Print Assumptions C138_export_refuted.
