(** The concrete world of Demo with sources that play any given function of time, for Examples that compare sources. *)
Require Import Verif.PyBase Verif.PyLemmas Verif.ConfigModel Verif.ArrayModel Verif.ArraySpec Verif.ArrayProofs Verif.ArrayPaths
  Verif.LoggerModel Verif.LoggerSpec Verif.LoggerProofs Verif.SimModel Verif.SimSpec Verif.SimDiag Verif.SignalSpec Verif.RunSpec
  Verif.DiagModel Verif.DiagCtorModel Verif.DiagRun Verif.SaveProps Verif.Demo Verif.DemoRun Verif.SignalProps.
Local Open Scope string_scope.
Local Open Scope Z_scope.

(** a generator: the number of samples played so far and the function it plays *)
Definition fdemo : AEnv := {|
  V := Z; v0 := 0; v1 := 1; vadd := Z.add; vmul := Z.mul;
  Pos := Z; Src := Z * (Z -> Z);
  src_get := fun s n => ((fst s + n, snd s), map (fun k => [snd s k]) (zrange (fst s) (fst s + n)));
  G := Z;
  np_normal := fun g _ _ _ => (g + 1, fun i j k => 100 * g + 10 * i + j + k);
  ism3d := fun par g p q => Ok (g, mkPath 1 1 (rp_len par) (fun _ _ k => if k =? Z.abs (p - q) then 1 else 0));
  filter_rirs := fun p _ _ => p |}.
Definition fdemo_d : @DEnv fdemo := @mkDEnv fdemo (fun x => x * x) Z.div Z.div.
Definition fdemo_s : @SEnv fdemo := @full fdemo fdemo_d Z Empty_set Empty_set (fun d => match d with end) (fun d => match d with end).
Local Existing Instances fdemo fdemo_d fdemo_s.
(** a microphone that may move, a source that plays x and a loudspeaker *)
Definition fone (n : string) (k : kind) (p : Z) (tr : option (Z -> Z)) (x : option (Z -> Z)) : arr Pos Src :=
  mkArr n k 1 (p : Pos) (tr : option (Z -> Pos)) ["omni"] (match x with Some g => Some ((0, g) : Src) | None => None end) [] [].
Definition froom (tr : option (Z -> Z)) (x : Z -> Z) : list (arr Pos Src) := [fone "mic" KMic 0 tr None; fone "src" KFree 2 None (Some x); fone "spk" KCtrl 1 None None].
Definition fcoll (i : info) (l : list (arr Pos Src)) : res (coll fdemo) :=
  c <- add_all (empty_coll (0 : G)) l ;; c <- set_default_path_type c "ism" ;; setup_ir c i.
(** plays the last block picked up by the microphone *)
Definition fecho (bs h : Z) : @proc fdemo fdemo_s :=
  {| pr_bs := bs; pr_hist := h; pr_locals := [];
     pr_step := fun s w => (s + 1, match dget w "mic" with Some x => [("spk", pyslice x (zlen x - bs) (zlen x))] | None => [] end); pr_state := (0 : PS) |}.
Definition frecorder (i : info) (nm : string) : res (diag (@D fdemo fdemo_s)) :=
  r <- record_signal nm 1 None (tot_samples i) ;; signal_diag_init i ANone None (DRecordSignal r : D).
Definition frecorders (i : info) (l : list string) : res (dict (diag (@D fdemo fdemo_s))) := mapM (fun nm => d <- frecorder i nm ;; Ok (nm, d)) l.
Lemma frecorders_get i l d : frecorders i l = Ok d -> dkeys d = l /\ forall nm, In nm l -> records i d nm nm 1.
Proof.
  unfold frecorders. revert d. induction l as [|n l IH]; cbn [mapM]; intros d H; [inversion H; subst; split; [reflexivity|intros nm []]|].
  apply bind_ok in H as ([k x] & H1 & H). apply bind_ok in H as (d1 & H2 & H). inversion H; subst d; clear H. apply bind_ok in H1 as (y & H1 & Q). injection Q as -> ->.
  destruct (IH _ H2) as [K1 K2]. split; [cbn [dkeys map fst]; f_equal; exact K1|]. intros nm Hn. unfold frecorder in H1. apply bind_ok in H1 as (r & R1 & R2).
  destruct (String.eqb_spec nm k) as [->|Hne].
  - exists ANone, r, x. split; [exact R1|]. split; [exact R2|]. cbn [dget]. rewrite String.eqb_refl. reflexivity.
  - destruct Hn as [Hn|Hn]; [congruence|]. destruct (K2 _ Hn) as (e & r' & d' & A & B & C). exists e, r', d'. split; [exact A|]. split; [exact B|]. cbn [dget]. apply String.eqb_neq in Hne. rewrite Hne. exact C.
Qed.
Lemma fdiag_okb_ok i (d : diag D) : diag_okb i d = true -> diag_ok i d.
Proof.
  unfold diag_okb, diag_ok. intros H. repeat (apply andb_prop in H as [H ?]).
  split; [unfold iv_wf; destruct (iv_start (d_iv d)), (iv_end (d_iv d)); auto; discriminate|]. split; [lia|].
  split; [unfold ix_wf; destruct (ix_next (d_ix d)); auto; discriminate|].
  split; [apply ivs_okb_ok; auto|]. split; [apply Forall_forall; rewrite forallb_forall in *; intros x Hx; specialize (H2 x Hx); lia|].
  split; [apply nondecb_ok; auto|]. apply Forall_forall; rewrite forallb_forall in *; intros x Hx. specialize (H0 x Hx); lia.
Qed.
Lemma fcoll_built i l c : Forall (sized (fun _ => 1)) l -> fcoll i l = Ok c -> built (sized (fun _ => 1)) c.
Proof.
  unfold fcoll. intros HF H. apply bind_ok in H as (c0 & Q0 & H). apply bind_ok in H as (c1 & Q1 & Q2).
  eapply built_setup; [|exact Q2]. eapply built_default; [|exact Q1].
  assert (K : forall l (c c' : coll fdemo), Forall (sized (fun _ => 1)) l -> built (sized (fun _ => 1)) c -> add_all c l = Ok c' -> built (sized (fun _ => 1)) c').
  { unfold add_all. clear. induction l as [|a l IH]; simpl; intros c c' F B H; [inversion H; subst; auto|]. inversion F; subst.
    apply bind_ok in H as (c5 & H5 & H). destruct (add_array c a) as [c6 [u|]] eqn:Q; inversion H5; subst.
    apply (IH c5 c'); auto. eapply built_add; eauto. }
  eapply K; [exact HF|constructor|exact Q0].
Qed.
Definition frun (i : info) (l : list (arr Pos Src)) (ps : list (Z * Z)) (names : list string) : res sim :=
  c <- fcoll i l ;; d <- frecorders i names ;; run_simulation i c (map (fun bh => fecho (fst bh) (snd bh)) ps) d.
(** everything a theorem about runs asks for *)
Lemma frun_meets i l ps names : is_ok (frun i l ps names) = true -> Forall (sized (fun _ => 1)) l -> supported i (map (fun bh => fecho (fst bh) (snd bh)) ps) -> NoDup names ->
  get (frecorders i names) (fun l => forallb (fun kd => diag_okb i (snd kd)) l) = Some true ->
  exists c d st, fcoll i l = Ok c /\ frecorders i names = Ok d /\ experiment i c (map (fun bh => fecho (fst bh) (snd bh)) ps) /\ good_diags i d /\
    run_simulation i c (map (fun bh => fecho (fst bh) (snd bh)) ps) d = Ok st.
Proof.
  intros H HF HS HN HG. apply is_ok_ex in H as [st H]. unfold frun in H. apply bind_ok in H as (c & Hc & H). apply bind_ok in H as (d & Hd & H).
  exists c, d, st. split; [exact Hc|]. split; [exact Hd|]. split; [|split; [|exact H]].
  - pose proof (fcoll_built _ _ _ HF Hc) as B. assert (G0 : @generators_shaped fdemo (fun _ => 1)) by (split; simpl; intros; auto; match goal with K : Ok _ = Ok _ |- _ => inversion K; subst; auto end).
    destruct (built_shaped (Q := sized (fun _ => 1)) G0 (fun a H => H) B) as (Hsz & Sh & _). constructor; auto.
    + eapply built_ok; eauto.
    + intros k a Ha. destruct (Hsz _ _ Ha). lia.
    + apply Forall_map, Forall_forall. intros x _ s w. cbn. destruct (dget w "mic"); cbn; repeat constructor. intros [].
  - split; [destruct (frecorders_get _ _ _ Hd) as [-> _]; exact HN|]. intros nm x Hx. apply fdiag_okb_ok. rewrite Hd in HG. cbn [get] in HG.
    assert (K : forallb (fun kd => diag_okb i (snd kd)) d = true) by exact (f_equal (fun o => match o with Some b => b | None => false end) HG). rewrite forallb_forall in K. apply (K (nm, x)). apply dget_In. exact Hx.
Qed.
Lemma froom_sized tr x : Forall (sized (fun _ => 1)) (froom tr x).
Proof. repeat constructor; simpl; intros; auto; discriminate. Qed.
Lemma fcoll_is i l c A (f : coll fdemo -> A) x : fcoll i l = Ok c -> get (fcoll i l) f = Some x -> f c = x.
Proof. intros -> H. cbn [get] in H. congruence. Qed.
(** what was recorded *)
Definition frecs (x : res (@sim fdemo fdemo_s)) (l : list string) : list (option (list (option (list Z)))) :=
  match x with
  | Ok st => map (fun n => match dget (sm_diags st) n with Some d => match d_pl d with DRecordSignal r => Some (rs_data r) | _ => None end | None => None end) l
  | Err _ => []
  end.
(** a source of this world that is started at time 0 plays its function *)
Lemma fdraw (p : Z) (g : Z -> Z) k : @nth_draw fdemo (p, g) 1 k = ((p + Z.of_nat k + 1, g), [[g (p + Z.of_nat k)]]).
Proof.
  assert (K : forall q : Z, @src_get fdemo (q, g) 1 = ((q + 1, g), [[g q]])) by (intros q; cbn; rewrite zrange_cons, zrange_empty by lia; reflexivity).
  induction k as [|k IH]; cbn [nth_draw]; [rewrite K|rewrite IH; cbn [fst]; rewrite K]; replace (p + Z.of_nat 0) with p by lia; [reflexivity|].
  replace (p + Z.of_nat (S k)) with (p + Z.of_nat k + 1) by lia. reflexivity.
Qed.
Lemma fplays (g : Z -> Z) t : @free_signal fdemo 1 (0, g) 1 t = if t <? 0 then [0] else [g t].
Proof.
  unfold free_signal. destruct (Z.ltb_spec t 0); destruct (Z.ltb_spec t (1 - 1)); try lia; [reflexivity|]. rewrite !fdraw. cbn [snd].
  destruct (Z.leb_spec t 0); cbn [shown]; change (zrep 1) with (fun x : Z => [x]); cbv beta; [replace t with 0 by lia; reflexivity|rewrite Z2Nat.id by lia; reflexivity].
Qed.
