(** C112: a microphone hears the sum of all loudspeakers and sources; how they are named, ordered and grouped into arrays, and which silent or inaudible ones there are, makes no difference. *)
Require Import Verif.PyBase Verif.PyLemmas Verif.ConfigModel Verif.ArrayModel Verif.ArraySpec Verif.ArrayProofs Verif.ArrayPaths Verif.LoggerModel Verif.LoggerSpec Verif.LoggerProofs
  Verif.SimModel Verif.SimSpec Verif.SimRefine Verif.SimRun Verif.SimDiag Verif.SimLoop Verif.SignalSpec Verif.SignalPass Verif.SignalRun Verif.SignalLaw Verif.SignalInv Verif.RunSpec Verif.RunLaw Verif.DiagRun
  Verif.DiagModel Verif.DiagSpec Verif.DiagProofs Verif.DiagCtorModel Verif.DiagCtorProofs Verif.SaveProps Verif.ProcModel Verif.Demo Verif.DemoRun Verif.DemoSpy Verif.SignalProps Verif.DemoFun.
Require Import Permutation Ring.
Set Implicit Arguments.
Arguments Z.add : simpl never.
Arguments Z.sub : simpl never.
Arguments Z.mul : simpl never.

Section Group.
Context {E : AEnv} {DE : DEnv}.
Variables PS0 D0 Out0 : Type.
Variable dsave0 : D0 -> option PS0 -> dict (list frame) -> Z * Z -> res D0.
Variable dout0 : D0 -> Z -> res Out0.
Local Instance GrS : SEnv := full dsave0 dout0.
(** samples are added and multiplied like exact numbers (rounding is not modelled) *)
Hypothesis Numbers : semi_ring_theory (v0 : V) v1 vadd vmul eq.
Add Ring VNumbers3 : Numbers.

(** one channel of a source array: the name of the array and the number of the channel *)
Definition speaker : Type := string * Z.
(** all that are connected to the microphone array m *)
Definition speakers (c : coll E) (m : string) : list speaker := flat_map (fun s => map (pair s) (zrange 0 (p_ns (path_of c s m)))) (c_src c).
(** what it plays: the signal of a generator, or whatever is known about the signal of a loudspeaker *)
Definition plays (i : info) (c : coll E) (procs : list (@proc E GrS)) (v : speaker) (x : Z -> V) : Prop :=
  (In (fst v) (c_free c) /\ exists a src, the_array c (fst v) a /\ a_source a = Some src /\ forall t, x t = chan (free_signal (a_num a) src (first_request (early_start i)) t) (snd v)) \/
  (forall t, x t = chan (signals_of i c procs (fst v) t) (snd v)).
(** coefficient n of the impulse response from it to channel j of m, zero after its end *)
Definition tap (c : coll E) (m : string) (v : speaker) (j n : Z) : V :=
  let p := path_of c (fst v) m in if (0 <=? n) && (n <? p_len p) then p_at p (snd v) j n else v0.
(** it plays nothing, or cannot be heard *)
Definition inaudible i c procs (m : string) (v : speaker) : Prop := plays i c procs v (fun _ => v0) \/ forall j n, tap c m v j n = v0.

Lemma sum_acc l : forall z, fold_left vadd l z = vadd z (vsum l).
Proof. unfold vsum. induction l as [|a l IH]; intros z; cbn [fold_left]; [ring|]. rewrite (IH (vadd z a)), (IH (vadd v0 a)). ring. Qed.
Lemma sum_cons a l : vsum (a :: l) = vadd a (vsum l).
Proof. unfold vsum at 1. cbn [fold_left]. rewrite sum_acc. ring. Qed.
Lemma sum_nil : vsum [] = v0.
Proof. reflexivity. Qed.
Lemma sum_app l l' : vsum (l ++ l') = vadd (vsum l) (vsum l').
Proof. induction l as [|a l IH]; cbn [app]; rewrite ?sum_nil, ?sum_cons; [ring|]. rewrite IH. ring. Qed.
Lemma sum_perm l l' : Permutation l l' -> vsum l = vsum l'.
Proof. induction 1 as [|a l l' _ IH|a b l|l l' l2 _ IH1 _ IH2]; rewrite ?sum_cons; [reflexivity|rewrite IH; reflexivity|ring|congruence]. Qed.
Lemma sum_none {A} (f : A -> V) l : Forall (fun a => f a = v0) l -> vsum (map f l) = v0.
Proof. induction 1 as [|a l H _ IH]; cbn [map]; rewrite ?sum_cons; [reflexivity|]. rewrite H, IH. ring. Qed.
Lemma sum_flat {A B} (f : B -> V) (g : A -> list B) l : vsum (map f (flat_map g l)) = vsum (map (fun a => vsum (map f (g a))) l).
Proof. induction l as [|a l IH]; cbn [flat_map map]; [reflexivity|]. rewrite map_app, sum_app, sum_cons, IH. reflexivity. Qed.
(** the sum over the coefficients may be continued after the end of the impulse response *)
Lemma sum_longer (f : Z -> V) n k : 0 <= n -> 0 <= k -> (forall x, n <= x -> f x = v0) -> vsum (map f (zrange 0 (n + k))) = vsum (map f (zrange 0 n)).
Proof.
  intros Hn Hk H. rewrite (@zrange_app 0 n (n + k)) by lia. rewrite map_app, sum_app. rewrite (sum_none f (l := zrange n (n + k))); [ring|]. apply Forall_forall. intros x Hx. apply In_zrange in Hx. apply H. lia.
Qed.

(** what channel j of m hears of one speaker that plays x *)
Definition heard (c : coll E) (m : string) (v : speaker) (x : Z -> V) (t j : Z) : V := vsum (map (fun n => vmul (tap c m v j n) (x (t - n))) (zrange 0 (p_len (path_of c (fst v) m)))).
Lemma heard_long c m v x t j k : 0 <= k -> heard c m v x t j = vsum (map (fun n => vmul (tap c m v j n) (x (t - n))) (zrange 0 (Z.max 0 (p_len (path_of c (fst v) m)) + k))).
Proof.
  intros Hk. unfold heard. set (L := p_len (path_of c (fst v) m)). rewrite sum_longer; [|lia|lia|intros n Hn; unfold tap; fold L; cbv zeta; replace ((0 <=? n) && (n <? L)) with false by lia; ring].
  destruct (Z_le_gt_dec 0 L); [rewrite Z.max_r by lia; reflexivity|]. rewrite !zrange_empty by lia. reflexivity.
Qed.

Section One.
Variables (i : info) (c : coll E) (procs : list (@proc E GrS)) (diags : dict (diag D)) (st : sim).
Hypothesis HX : experiment i c procs.
Hypothesis HD : good_diags i diags.
Hypothesis HR : run_simulation i c procs diags = Ok st.
Definition voice (v : speaker) (t : Z) : V := chan (signals_of i c procs (fst v) t) (snd v).
Lemma plays_voice v x t : plays i c procs v x -> t <= Z.of_nat (run_length i procs) -> voice v t = x t.
Proof.
  intros [(Hf & a & src & Ha & Hs & H)|H] Ht; unfold voice; [|auto]. destruct (free_law HX HD HR Hf Ha) as (src' & Q1 & Q2). rewrite Q2, H by lia. congruence.
Qed.
Lemma mic_hears m b t : stationary c -> In m (c_mic c) -> the_array c m b -> mic_untouched procs m -> 0 <= t <= Z.of_nat (run_length i procs) ->
  signals_of i c procs m t = map (fun j => vsum (map (fun v => heard c m v (voice v) t j) (speakers c m))) (zrange 0 (a_num b)).
Proof.
  intros HS Hm Hb Hu Ht. rewrite (mic_law HX HD HR Hm Hb HS), (untouched_silent HX HD HR t Hb Hu), mix_zeros by lia.
  unfold mix. apply map_ext_in. intros j Hj. apply In_zrange in Hj. rewrite map_map. unfold speakers. rewrite sum_flat. f_equal. apply map_ext_in. intros s Hs.
  assert (Q : chan (response (path_of c s m) (signals_of i c procs s) t) j = convolved (path_of c s m) (signals_of i c procs s) t j).
  { unfold response, chan. rewrite zget_map, zget_zrange. destruct ((0 <=? j) && (j <? p_nm (path_of c s m) - 0)) eqn:Q; cbn [option_map]; [replace (0 + j) with j by lia; reflexivity|]. unfold path_of in *. destruct (lookup2 (c_paths c) s m) as [p|] eqn:Ep.
    - destruct (src_array (ex_coll HX) s Hs) as (a & Ha & _). destruct (ex_paths HX Ep Hs Hm Ha Hb) as (_ & Nm). lia.
    - reflexivity. }
  rewrite Q. unfold convolved. rewrite map_map. f_equal. apply map_ext_in. intros k _. unfold heard. cbn [fst]. f_equal. apply map_ext_in. intros n Hn. apply In_zrange in Hn. unfold tap, voice. cbn [fst snd]. cbv zeta.
  replace ((0 <=? n) && (n <? p_len (path_of c s m))) with true by lia. reflexivity.
Qed.
Lemma inaudible_silent m v t j : inaudible i c procs m v -> t <= Z.of_nat (run_length i procs) -> heard c m v (voice v) t j = v0.
Proof.
  intros H Ht. unfold heard. apply sum_none, Forall_forall. intros n Hn. apply In_zrange in Hn. destruct H as [H|H]; [rewrite (plays_voice H) by lia|rewrite H]; ring.
Qed.
End One.

(** two experiments *)
Variables (i i' : info) (c c' : coll E) (procs procs' : list (@proc E GrS)) (diags diags' : dict (diag D)) (st st' : sim).
Hypothesis HX : experiment i c procs.
Hypothesis HD : good_diags i diags.
Hypothesis HR : run_simulation i c procs diags = Ok st.
Hypothesis HX' : experiment i' c' procs'.
Hypothesis HD' : good_diags i' diags'.
Hypothesis HR' : run_simulation i' c' procs' diags' = Ok st'.
(** a speaker of the first and one of the second that play the same and reach their microphone arrays through the same impulse responses *)
Definition same_speaker (m m' : string) (vv : speaker * speaker) : Prop :=
  (exists x, plays i c procs (fst vv) x /\ plays i' c' procs' (snd vv) x) /\ forall j n, tap c' m' (snd vv) j n = tap c m (fst vv) j n.

(** C112.  Stationary arrays.  If the speakers of one experiment are those of the other, except for inaudible ones, then the microphone arrays m and m' record the same, whatever the
    names of all arrays, their order and the division of the speakers into arrays. *)
Theorem C112_grouping m m' b b' dn dn' pairs q q' : stationary c -> stationary c' ->
  In m (c_mic c) -> the_array c m b -> mic_untouched procs m -> In m' (c_mic c') -> the_array c' m' b' -> mic_untouched procs' m' -> a_num b' = a_num b ->
  Permutation (speakers c m) (map fst pairs ++ q) -> Permutation (speakers c' m') (map snd pairs ++ q') ->
  Forall (same_speaker m m') pairs -> Forall (inaudible i c procs m) q -> Forall (inaudible i' c' procs' m') q' ->
  records i diags dn m (a_num b) -> records i' diags' dn' m' (a_num b') ->
  exists x x', recording i st dn x /\ recording i' st' dn' x' /\ forall t, 0 <= t < tot_samples i -> t < tot_samples i' -> x' t = x t.
Proof.
  intros S1 S2 Hm Hb Hu Hm' Hb' Hu' Hn P P' HP Q Q' R R'. exists (signals_of i c procs m), (signals_of i' c' procs' m'). split; [|split].
  - eapply (recorded_array HX HD HR); eauto.
  - eapply (recorded_array HX' HD' HR'); eauto.
  - intros t Ht Ht'. pose proof (run_longer HX HD HR) as L1. pose proof (run_longer HX' HD' HR') as L2.
    rewrite (mic_hears HX HD HR (t := t) S1 Hm Hb Hu) by lia. rewrite (mic_hears HX' HD' HR' (t := t) S2 Hm' Hb' Hu') by lia. rewrite Hn. apply map_ext_in. intros j Hj.
      rewrite (sum_perm (Permutation_map (fun v => heard c m v (voice i c procs v) t j) P)), (sum_perm (Permutation_map (fun v => heard c' m' v (voice i' c' procs' v) t j) P')).
      rewrite !map_app, !sum_app. 
      rewrite (sum_none (fun v => heard c m v (voice i c procs v) t j) (l := q)); [|eapply Forall_impl; [|exact Q]; intros v Hv; apply (inaudible_silent HX HD HR); auto; lia].
      rewrite (sum_none (fun v => heard c' m' v (voice i' c' procs' v) t j) (l := q')); [|eapply Forall_impl; [|exact Q']; intros v Hv; apply (inaudible_silent HX' HD' HR'); auto; lia].
      f_equal. rewrite !map_map. f_equal. apply map_ext_in. intros [v v'] Hv. rewrite Forall_forall in HP. destruct (HP _ Hv) as ((x & X1 & X2) & T). cbn [fst snd] in *.
      set (L := Z.max 0 (p_len (path_of c (fst v) m)) + Z.max 0 (p_len (path_of c' (fst v') m'))).
      rewrite (@heard_long c m v _ t j (Z.max 0 (p_len (path_of c' (fst v') m')))), (@heard_long c' m' v' _ t j (Z.max 0 (p_len (path_of c (fst v) m)))) by lia.
      rewrite (Z.add_comm (Z.max 0 (p_len (path_of c' (fst v') m')))). fold L. f_equal. apply map_ext_in. intros n Hn0. apply In_zrange in Hn0.
      rewrite T, (plays_voice HX HD HR X1), (plays_voice HX' HD' HR' X2) by lia. reflexivity.
Qed.
End Group.

(* ------------------------------------------------------------------ Examples *)
Section Examples.
Local Open Scope string_scope.
Local Existing Instances fdemo fdemo_d fdemo_s.
Let i1 := run_info 10 5 false true.
Let i2 := run_info 12 3 false false.
Let up (t : Z) : Z := (t + 5)%Z.
Let square (t : Z) : Z := (t * t)%Z.
Let mute (t : Z) : Z := 0%Z.
Let none : list (@proc fdemo fdemo_s) := [].
(** three arrays with one source each; a and b play the same, the third nothing *)
Let apart : list (arr Pos Src) := [fone "mic" KMic 0 None None; fone "a" KFree 2 None (Some up); fone "b" KFree 3 None (Some up); fone "quiet" KFree 1 None (Some mute)].
(** one array with both sources, an inaudible source, in another order and with other names *)
Let both : arr Pos Src := mkArr "both" KFree 2 (0%Z : Pos) None ["omni"; "omni"] (Some ((0, up) : Src)) [] [].
Let together : list (arr Pos Src) := [fone "far" KFree 100 None (Some square); both; fone "ear" KMic 0 None None].
Let two_rows : path (@V fdemo) := mkPath 2 1 4 (fun s _ k => if (k =? 2 + s)%Z then 1%Z else 0%Z).
Definition gcoll (i : info) (l : list (arr Pos Src)) (given : option (string * string * path V)) : res (coll fdemo) :=
  c <- add_all (empty_coll (0%Z : G)) l ;; c <- match given with Some (s, m, p) => set_prop_path c p s m | None => Ok c end ;; c <- set_default_path_type c "ism" ;; setup_ir c i.
Definition grun (i : info) (l : list (arr Pos Src)) given (names : list string) : res sim :=
  c <- gcoll i l given ;; d <- frecorders i names ;; run_simulation i c none d.
Lemma gcoll_ok i l given c : gcoll i l given = Ok c -> coll_ok c.
Proof.
  unfold gcoll. intros H. apply bind_ok in H as (c0 & Q0 & H). apply bind_ok in H as (c1 & Q1 & H). apply bind_ok in H as (c2 & Q2 & Q3).
  apply (built_ok (Q := fun _ => True)). eapply built_setup; [|exact Q3]. eapply built_default; [|exact Q2].
  assert (K : forall l (c c' : coll fdemo), built (fun _ => True) c -> add_all c l = Ok c' -> built (fun _ => True) c').
  { unfold add_all. clear. induction l as [|a l IH]; simpl; intros c c' B H; [inversion H; subst; auto|].
    apply bind_ok in H as (c5 & H5 & H). destruct (add_array c a) as [c6 [u|]] eqn:Q; inversion H5; subst. apply (IH c5 c'); auto. eapply built_add; eauto. }
  assert (B0 : built (fun _ => True) c0) by (eapply K; [constructor|exact Q0]). destruct given as [[[s m] p]|]; [eapply built_path; [exact B0|exact Q1]|]. injection Q1 as <-. exact B0.
Qed.
Lemma grun_meets i l given names : is_ok (grun i l given names) = true -> supported i none -> NoDup names -> get (frecorders i names) (fun l => forallb (fun kd => diag_okb i (snd kd)) l) = Some true ->
  exists c d st, gcoll i l given = Ok c /\ frecorders i names = Ok d /\ (shaped c -> (forall k a, the_array c k a -> 0 <= a_num a) -> experiment i c none) /\ good_diags i d /\ run_simulation i c none d = Ok st.
Proof.
  intros H HS HN HG. apply is_ok_ex in H as [st H]. unfold grun in H. apply bind_ok in H as (c & Hc & H). apply bind_ok in H as (d & Hd & H).
  exists c, d, st. split; [exact Hc|]. split; [exact Hd|]. split; [|split; [|exact H]].
  - intros Sh Hn. constructor; [exact HS|exact (gcoll_ok _ _ _ Hc)|exact Sh|exact Hn|constructor].
  - split; [destruct (frecorders_get _ _ _ Hd) as [-> _]; exact HN|]. intros nm x Hx. apply fdiag_okb_ok. rewrite Hd in HG. cbn [get] in HG.
    assert (K : forallb (fun kd => diag_okb i (snd kd)) d = true) by exact (f_equal (fun o => match o with Some b => b | None => false end) HG). rewrite forallb_forall in K. apply (K (nm, x)). apply dget_In. exact Hx.
Qed.
Lemma gcoll_is i l g c A (f : coll fdemo -> A) x : gcoll i l g = Ok c -> get (gcoll i l g) f = Some x -> f c = x.
Proof. intros -> H. cbn [get] in H. congruence. Qed.
Lemma plays_two (g : Z -> Z) t : @free_signal fdemo 2 (0%Z, g) 1 t = if (t <? 0)%Z then [0; 0]%Z else [g t; g t].
Proof.
  unfold free_signal. destruct (Z.ltb_spec t 0); destruct (Z.ltb_spec t (1 - 1)); try lia; [reflexivity|]. rewrite !fdraw. cbn [snd].
  destruct (Z.leb_spec t 0); cbn [shown]; [replace t with 0%Z by lia; reflexivity|rewrite Z2Nat.id by lia; reflexivity].
Qed.
Example C112_example : semi_ring_theory 0%Z 1%Z Z.add Z.mul eq /\ exists (c c' : coll fdemo) (d d' : dict (diag (@D fdemo fdemo_s))) st st' b b',
  experiment i1 c none /\ good_diags i1 d /\ run_simulation i1 c none d = Ok st /\ experiment i2 c' none /\ good_diags i2 d' /\ run_simulation i2 c' none d' = Ok st' /\
  stationary c /\ stationary c' /\ In "mic" (c_mic c) /\ the_array c "mic" b /\ In "ear" (c_mic c') /\ the_array c' "ear" b' /\ a_num b' = a_num b /\ mic_untouched none "mic" /\ mic_untouched none "ear" /\
  Permutation (speakers c "mic") [("a", 0); ("b", 0); ("quiet", 0)]%Z /\ Permutation (speakers c' "ear") [("both", 0); ("both", 1); ("far", 0)]%Z /\
  same_speaker i1 i2 c c' none none "mic" "ear" (("a", 0), ("both", 0))%Z /\ same_speaker i1 i2 c c' none none "mic" "ear" (("b", 0), ("both", 1))%Z /\
  inaudible i1 c none "mic" ("quiet", 0%Z) /\ inaudible i2 c' none "ear" ("far", 0%Z) /\ records i1 d "mic" "mic" (a_num b) /\ records i2 d' "ear" "ear" (a_num b').
Proof.
  split; [constructor; intros; ring|].
  destruct (@grun_meets i1 apart None ["mic"]) as (c & d & st & Hc & Hd & A & B & C); [vm_compute; reflexivity|cbn; lia|repeat constructor; simpl; tauto|vm_compute; reflexivity|].
  destruct (@grun_meets i2 together (Some ("both", "ear", two_rows)) ["ear"]) as (c' & d' & st' & Hc' & Hd' & A' & B' & C'); [vm_compute; reflexivity|cbn; lia|repeat constructor; simpl; tauto|vm_compute; reflexivity|].
  destruct (frecorders_get _ _ _ Hd) as [_ K]. destruct (frecorders_get _ _ _ Hd') as [_ K'].
  pose proof (gcoll_is _ _ _ (fun c => (c_arrays c, c_free c, c_src c, c_mic c)) Hc (ltac:(vm_compute; reflexivity))) as Q. cbv beta in Q. injection Q as Q1 Q2 Q3 Q4.
  pose proof (gcoll_is _ _ _ (fun c => (c_arrays c, c_free c, c_src c, c_mic c)) Hc' (ltac:(vm_compute; reflexivity))) as Q. cbv beta in Q. injection Q as Q1' Q2' Q3' Q4'.
  pose proof (gcoll_is _ _ _ (fun c => c_paths c) Hc (ltac:(vm_compute; reflexivity))) as Q5. cbv beta in Q5.
  pose proof (gcoll_is _ _ _ (fun c => c_paths c) Hc' (ltac:(vm_compute; reflexivity))) as Q5'. cbv beta in Q5'.
  assert (X : experiment i1 c none).
  { apply A.
    - intros s m p a b Hp Hs Hm Ha Hb. unfold the_array in *. rewrite Q5 in Hp. rewrite Q1 in Ha, Hb. rewrite Q3 in Hs. rewrite Q4 in Hm. destruct Hm as [<-|[]]. unfold lookup2 in Hp.
      repeat (destruct Hs as [<-|Hs]; [cbn in Hp, Ha, Hb; injection Hp as <-; injection Ha as <-; injection Hb as <-; split; reflexivity|]). destruct Hs.
    - intros k a Ha. unfold the_array in Ha. rewrite Q1 in Ha. cbn [dget] in Ha. repeat (destruct (String.eqb _ _); [injection Ha as <-; cbn; lia|]). discriminate Ha. }
  assert (X' : experiment i2 c' none).
  { apply A'.
    - intros s m p a b Hp Hs Hm Ha Hb. unfold the_array in *. rewrite Q5' in Hp. rewrite Q1' in Ha, Hb. rewrite Q3' in Hs. rewrite Q4' in Hm. destruct Hm as [<-|[]]. unfold lookup2 in Hp.
      repeat (destruct Hs as [<-|Hs]; [cbn in Hp, Ha, Hb; injection Hp as <-; injection Ha as <-; injection Hb as <-; split; reflexivity|]). destruct Hs.
    - intros k a Ha. unfold the_array in Ha. rewrite Q1' in Ha. cbn [dget] in Ha. repeat (destruct (String.eqb _ _); [injection Ha as <-; cbn; lia|]). discriminate Ha. }
  assert (T : forall s, path_of c s "mic" = match lookup2 (c_paths c) s "mic" with Some p => p | None => mkPath 0 0 0 (fun _ _ _ => v0) end) by reflexivity.
  assert (T' : forall s, path_of c' s "ear" = match lookup2 (c_paths c') s "ear" with Some p => p | None => mkPath 0 0 0 (fun _ _ _ => v0) end) by reflexivity.
  assert (In4 : forall n, (n < 0 \/ 4 <= n)%Z \/ n = 0%Z \/ n = 1%Z \/ n = 2%Z \/ n = 3%Z) by (intros; lia).
  assert (Out : forall (c : coll fdemo) m v j n, p_len (path_of c (fst v) m) = 4%Z -> (n < 0 \/ 4 <= n)%Z -> tap c m v j n = 0%Z).
  { intros e m v j n H Hn. unfold tap. cbv zeta. rewrite H. replace ((0 <=? n) && (n <? 4))%Z%bool with false by lia. reflexivity. }
  eexists c, c', d, d', st, st', _, _. split; [exact X|]. split; [exact B|]. split; [exact C|]. split; [exact X'|]. split; [exact B'|]. split; [exact C'|].
  split. { intros k a Ha. unfold the_array in Ha. rewrite Q1 in Ha. cbn [dget] in Ha. repeat (destruct (String.eqb _ _); [injection Ha as <-; reflexivity|]). discriminate Ha. }
  split. { intros k a Ha. unfold the_array in Ha. rewrite Q1' in Ha. cbn [dget] in Ha. repeat (destruct (String.eqb _ _); [injection Ha as <-; reflexivity|]). discriminate Ha. }
  split; [rewrite Q4; left; reflexivity|]. split; [unfold the_array; rewrite Q1; reflexivity|]. split; [rewrite Q4'; left; reflexivity|]. split; [unfold the_array; rewrite Q1'; reflexivity|]. split; [reflexivity|].
  split; [constructor|]. split; [constructor|].
  split. { unfold speakers. rewrite Q3. cbn [flat_map]. rewrite !T, Q5. apply Permutation_refl. }
  split. { unfold speakers. rewrite Q3'. cbn [flat_map]. rewrite !T', Q5'. apply (Permutation_app_comm [("far", 0%Z)] [("both", 0%Z); ("both", 1%Z)]). }
  assert (Pa : forall s k a g, In s (c_free c) -> the_array c s a -> a_num a = 1%Z -> a_source a = Some ((0%Z, g) : Src) -> k = 0%Z -> plays i1 c none (s, k) (fun t => if (t <? 0)%Z then 0%Z else g t)).
  { intros s k a g Hf Ha Hn Hg ->. left. split; [exact Hf|]. exists a, (0%Z, g). split; [exact Ha|]. split; [exact Hg|]. intros t. rewrite Hn. cbn [fst snd]. change (first_request (early_start i1)) with 1%Z. rewrite fplays. destruct (t <? 0)%Z; reflexivity. }
  assert (Pb : forall k, k = 0%Z \/ k = 1%Z -> plays i2 c' none ("both", k) (fun t => if (t <? 0)%Z then 0%Z else up t)).
  { intros k Hk. left. split; [rewrite Q2'; right; left; reflexivity|]. exists both, (0%Z, up). split; [unfold the_array; rewrite Q1'; reflexivity|]. split; [reflexivity|]. intros t. cbn [fst snd]. change (first_request (early_start i2)) with 1%Z. change (a_num both) with 2%Z. rewrite plays_two.
    destruct (t <? 0)%Z; destruct Hk as [-> | ->]; reflexivity. }
  split; [|split; [|split; [|split; [|split]]]].
  - split; [exists (fun t => if (t <? 0)%Z then 0%Z else up t); split; [eapply Pa; [rewrite Q2; left; reflexivity|unfold the_array; rewrite Q1; reflexivity|reflexivity|reflexivity|reflexivity]|apply Pb; left; reflexivity]|].
    intros j n. destruct (In4 n) as [O|Hn]; [rewrite !Out; [reflexivity| |exact O| |exact O]; cbn [fst snd]; rewrite ?T, ?T', ?Q5, ?Q5'; reflexivity|]. unfold tap. cbn [fst snd]. rewrite T, T', Q5, Q5'. repeat (destruct Hn as [-> |Hn]; [reflexivity|]). rewrite Hn. reflexivity.
  - split; [exists (fun t => if (t <? 0)%Z then 0%Z else up t); split; [eapply Pa; [rewrite Q2; right; left; reflexivity|unfold the_array; rewrite Q1; reflexivity|reflexivity|reflexivity|reflexivity]|apply Pb; right; reflexivity]|].
    intros j n. destruct (In4 n) as [O|Hn]; [rewrite !Out; [reflexivity| |exact O| |exact O]; cbn [fst snd]; rewrite ?T, ?T', ?Q5, ?Q5'; reflexivity|]. unfold tap. cbn [fst snd]. rewrite T, T', Q5, Q5'. repeat (destruct Hn as [-> |Hn]; [reflexivity|]). rewrite Hn. reflexivity.
  - left. assert (Z0 : plays i1 c none ("quiet", 0%Z) (fun t => if (t <? 0)%Z then 0%Z else mute t)). { eapply Pa; [rewrite Q2; right; right; left; reflexivity|unfold the_array; rewrite Q1; reflexivity|reflexivity|reflexivity|reflexivity]. }
    destruct Z0 as [(F & a & src & H1 & H2 & H3)|H3]; [left; split; [exact F|]; exists a, src; split; [exact H1|]; split; [exact H2|]|right]; intros t; rewrite <- H3; unfold mute; destruct (t <? 0)%Z; reflexivity.
  - right. intros j n. destruct (In4 n) as [O|Hn]; [apply Out; [cbn [fst]; rewrite T', Q5'; reflexivity|exact O]|]. unfold tap. cbn [fst snd]. rewrite T', Q5'. repeat (destruct Hn as [-> |Hn]; [reflexivity|]). rewrite Hn. reflexivity.
  - apply K. left; reflexivity.
  - apply K'. left; reflexivity.
Qed.
(** what is recorded *)
Example C112_values : let frames l := [Some (map (fun x => Some [x]) l)] in
  frecs (grun i1 apart None ["mic"]) ["mic"] = frames [0; 0; 5; 11; 13; 15; 17; 19; 21; 23; 25; 27]%Z /\
  frecs (grun i2 together (Some ("both", "ear", two_rows)) ["ear"]) ["ear"] = frames [0; 0; 5; 11; 13; 15; 17; 19; 21; 23; 25; 27]%Z.
Proof. split; vm_compute; reflexivity. Qed.
End Examples.
Print Assumptions C112_grouping.
