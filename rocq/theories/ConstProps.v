(** C106: simulators in one process and the constants of pyroomacoustics. *)
Require Import Verif.PyBase Verif.PyLemmas Verif.ConfigModel Verif.ArrayModel Verif.ArraySpec Verif.ArrayProofs Verif.ConstModel Verif.Demo.
Set Implicit Arguments.
Arguments Z.add : simpl never.
Arguments Z.sub : simpl never.
Arguments Z.mul : simpl never.
Ltac Zify.zify_post_hook ::= Z.div_mod_to_equations.

Section Own.
Context {E : AEnv}.
Lemma foldM_inv {A B} (P : A -> Prop) (f : A -> B -> res A) l : forall a a', (forall x y b, P x -> f x b = Ok y -> P y) -> P a -> foldM f a l = Ok a' -> P a'.
Proof. induction l as [|b l IH]; cbn [foldM]; intros a a' Hf Ha H; [injection H as <-; auto|]. apply bind_ok in H as (x & H1 & H). eauto. Qed.
Lemma update_path_keeps c s m c' : update_path c s m = Ok c' -> c_info c' = c_info c.
Proof.
  unfold update_path. intros H. apply bind_ok in H as (rv & _ & H). apply bind_ok in H as (u & _ & H). destruct (c_info c) as [i|] eqn:Q; [|discriminate].
  apply bind_ok in H as (gp & _ & H). apply bind_ok in H as (ps & _ & H). injection H as <-. exact Q.
Qed.
Lemma update_keeps c g c' : update c g = Ok c' -> c_info c' = c_info c.
Proof.
  unfold update. intros H. destruct (c_info c) as [i|] eqn:Q; [|discriminate]. destruct (array_update_freq i =? 0); [discriminate|]. destruct (negb _); [injection H as <-; exact Q|].
  apply bind_ok in H as ([c1 l1] & H & H'). injection H' as <-. cbn [fst]. rewrite <- Q.
  apply (foldM_inv (fun x => c_info (fst x) = c_info c)) with (a := (set_arrays c (map (fun kv => (fst kv, arr_update (snd kv) g)) (c_arrays c)), [])) (a' := (c1, l1)) in H; auto.
  clear. intros [x l] [y l'] k Hx H. cbn [fst] in *. unfold update_changed in H. apply bind_ok in H as (a & _ & H). apply bind_ok in H as (c2 & H & H'). injection H' as <- <-. rewrite <- Hx.
  destruct (is_mic a); [|destruct (is_source a); [|discriminate]].
  - apply bind_ok in H as (ss & _ & H). apply bind_ok in H as (c3 & H & H'). assert (c2 = c3) as -> by (destruct ss; congruence).
    refine (foldM_inv (fun z => c_info z = c_info x) _ _ _ _ _ H); [|reflexivity]. intros z w s Hz Hw. cbv beta in Hw. destruct (negb _); [|congruence]. apply update_path_keeps in Hw. congruence.
  - apply bind_ok in H as (ms & _ & H). refine (foldM_inv (fun z => c_info z = c_info x) _ _ _ _ _ H); [|reflexivity]. intros z w s Hz Hw. cbv beta in Hw. destruct (negb _); [|congruence]. apply update_path_keeps in Hw. congruence.
Qed.
Lemma setup_keeps c i c' : setup_ir c i = Ok c' -> c_info c' = Some i.
Proof.
  unfold setup_ir. intros H. apply bind_ok in H as (u & _ & H). apply bind_ok in H as (cs & _ & H). refine (foldM_inv (fun z => c_info z = Some i) _ _ _ _ _ H); [|reflexivity].
  intros x y sm Hx Hy. unfold setup_one in Hy. apply bind_ok in Hy as (rv & _ & Hy). destruct (negb _); [|congruence]. apply bind_ok in Hy as (gp & _ & Hy). apply bind_ok in Hy as (ps & _ & Hy). injection Hy as <-. exact Hx.
Qed.
Lemma under_own k i : k = constants_of i -> under k i = i.
Proof. intros ->. unfold under, constants_of. cbn [k_c k_frac]. replace ((2 * (0 + extra_delay i) + 1 - 1) / 2) with (extra_delay i) by lia. destruct i; reflexivity. Qed.
Lemma set_info_same (c : coll E) i : c_info c = Some i -> set_info c i = c.
Proof. destruct c; cbn. intros ->. reflexivity. Qed.
Lemma update_under_own k (c : coll E) i g : c_info c = Some i -> k = constants_of i -> update_under k c g = update c g.
Proof.
  intros Hi Hk. unfold update_under. rewrite Hi, (under_own Hk), (set_info_same _ Hi). destruct (update c g) as [c'|e] eqn:Q; [|reflexivity]. cbn [bind]. f_equal. apply set_info_same. apply update_keeps in Q. congruence.
Qed.

(** what a simulator does by itself when it gets to the time indices gs; a failing update leaves it as it was *)
Definition alone (c : coll E) (gs : list Z) : coll E := fold_left (fun c g => match update c g with Ok c' => c' | Err _ => c end) gs c.
(** the time indices that the simulator gets to *)
Definition ticks (name : string) (h : list (event E)) : list Z := flat_map (fun e => match e with Tick n g => if String.eqb n name then [g] else [] | _ => [] end) h.
(** nothing else is called the same, and all simulators have this speed of sound and delay *)
Definition agrees (name : string) (i : info) (e : event E) : Prop :=
  match e with
  | Create n _ j => n <> name /\ c_sound j = c_sound i /\ extra_delay j = extra_delay i
  | Load n _ => n <> name
  | Tick _ _ => True
  end.
(** C106.  If every simulator that is created later has the same speed of sound and the same delay, a simulator is not influenced by
    the others: its arrays and paths are those it would have by itself *)
Theorem C106_alone_partial p name arrays i c h : setup_ir arrays i = Ok c -> Forall (agrees name i) h ->
  dget (pc_sims (history p (Create name arrays i :: h))) name = Some (alone c (ticks name h)).
Proof.
  intros Hs HF. unfold history. cbn [fold_left happen]. rewrite Hs. set (p1 := mkProcess _ _).
  assert (K : pc_constants p1 = constants_of i) by reflexivity. assert (K2 : dget (pc_sims p1) name = Some c) by (apply dget_dset_same).
  apply setup_keeps in Hs. clearbody p1. revert p1 c K K2 Hs. clear p arrays. induction HF as [|e h He _ IH]; intros p c K K2 Hi; [exact K2|]. cbn [fold_left].
  destruct e as [n a j|n a|n g]; cbn [agrees] in He.
  - destruct He as (Hn & E1 & E2). assert (Q : constants_of j = constants_of i) by (unfold constants_of; congruence). cbn [ticks flat_map app].
    apply IH; auto; cbn [happen]; destruct (setup_ir a j); cbn [pc_constants pc_sims]; auto. rewrite dget_dset_other; auto.
  - cbn [ticks flat_map app]. apply IH; auto. cbn [happen pc_sims]. rewrite dget_dset_other; auto.
  - cbn [happen]. destruct (String.eqb_spec n name) as [->|Hn].
    + change (ticks name (Tick name g :: h)) with ((if String.eqb name name then [g] else []) ++ ticks name h). rewrite String.eqb_refl. cbn [app alone fold_left]. rewrite K2.
      rewrite (update_under_own c g Hi K). destruct (update c g) as [c'|er] eqn:Q.
      * apply IH; [exact K|cbn [pc_sims]; apply dget_dset_same|]. apply update_keeps in Q. congruence.
      * apply IH; auto.
    + change (ticks name (Tick n g :: h)) with ((if String.eqb n name then [g] else []) ++ ticks name h). apply String.eqb_neq in Hn. rewrite Hn. cbn [app]. apply String.eqb_neq in Hn.
      destruct (dget (pc_sims p) n) as [cn|]; [|apply IH; auto]. destruct (update_under (pc_constants p) cn g); apply IH; auto. cbn [pc_sims]. rewrite dget_dset_other; auto.
Qed.
(** C106.  The paths computed when a simulator is created are always its own, whatever happened before *)
Theorem C106_created p h name arrays i c : setup_ir arrays i = Ok c -> dget (pc_sims (history p (h ++ [Create name arrays i]))) name = Some c.
Proof. intros Hs. unfold history. rewrite fold_left_app. cbn [fold_left happen]. rewrite Hs. apply dget_dset_same. Qed.
End Own.

(* ------------------------------------------------------------------ witnesses *)
Section Witness.
Local Open Scope string_scope.
Local Open Scope Z_scope.
(** as the demonstration environment, with paths whose only sample shows the speed of sound and the delay filter's length *)
Definition sound : AEnv := {|
  V := Z; v0 := 0; v1 := 1; vadd := Z.add; vmul := Z.mul; Pos := Z; Src := Z;
  src_get := fun s n => (s + n, map (fun k => [k]) (zrange s (s + n)));
  G := Z; np_normal := fun g _ _ _ => (g, fun _ _ _ => 0);
  ism3d := fun par g p q => Ok (g, mkPath 1 1 1 (fun _ _ _ => 1000 * rp_c par + 10 * Z.abs (p - q) + rp_extra_delay par));
  filter_rirs := fun p _ _ => p |}.
Local Existing Instance sound.
Definition with_speed (c : Z) (d : Z) : info := mkInfo 12 10 5 false true 4 100 c 3 "ism" [1; 1; 1] [0; 0; 0] 1 8 false d 0 6 "pdf" 1 false.
Definition moving_mic : arr Pos Src := @mkArr Z Z "mic" KMic 1 0 (Some (fun t => t)) ["omni"] None [] [].
Definition still_src : arr Pos Src := @mkArr Z Z "src" KFree 1 9 None ["omni"] (Some 0) [] [].
Definition sound_setup : res (coll sound) := c <- add_all (empty_coll 0) [moving_mic; still_src] ;; set_default_path_type c "ism".
Definition first_sample (o : option (coll sound)) : option Z :=
  match o with Some c => option_map (fun p => p_at p 0 0 0) (lookup2 (c_paths c) "src" "mic") | None => None end.
Definition fresh : process sound := mkProcess (mkConstants 343 81) [].

Lemma setup_ex : exists c, sound_setup = Ok c.
Proof. apply is_ok_ex. vm_compute. reflexivity. Qed.
(** C106 is false otherwise: a simulator with a speed of sound of 343 computes the paths of its moving microphone with the 300 of one that has been
    created in the meantime *)
Theorem C106_other_refuted : exists c0 c, setup_ir c0 (with_speed 343 40) = Ok c /\
  first_sample (dget (pc_sims (history fresh [Create "a" c0 (with_speed 343 40); Create "b" c0 (with_speed 300 40); Tick "a" 4])) "a") = Some 300090 /\
  first_sample (Some (alone c [4])) = Some 343090.
Proof.
  destruct setup_ex as [c0 H0]. assert (K : is_ok (c0 <- sound_setup ;; setup_ir c0 (with_speed 343 40)) = true) by (vm_compute; reflexivity). rewrite H0 in K. cbn [bind] in K. apply is_ok_ex in K as [c Hc].
  exists c0, c. split; [exact Hc|]. split.
  - assert (K : get sound_setup (fun c0 => first_sample (dget (pc_sims (history fresh [Create "a" c0 (with_speed 343 40); Create "b" c0 (with_speed 300 40); Tick "a" 4])) "a")) = Some (Some 300090)) by (vm_compute; reflexivity).
    rewrite H0 in K. cbn [get] in K. injection K as K. exact K.
  - assert (K : get (c0 <- sound_setup ;; setup_ir c0 (with_speed 343 40)) (fun c => first_sample (Some (alone c [4]))) = Some (Some 343090)) by (vm_compute; reflexivity).
    rewrite H0 in K. cbn [bind] in K. rewrite Hc in K. cbn [get] in K. injection K as K. exact K.
Qed.
(** and a simulator made from a stored session in a new process computes them with the constants that pyroomacoustics starts with *)
Theorem C106_loaded_refuted : exists c0 c, setup_ir c0 (with_speed 300 50) = Ok c /\
  first_sample (dget (pc_sims (history fresh [Load "a" c; Tick "a" 4])) "a") = Some 343090 /\
  first_sample (Some (alone c [4])) = Some 300100.
Proof.
  destruct setup_ex as [c0 H0]. assert (K : is_ok (c0 <- sound_setup ;; setup_ir c0 (with_speed 300 50)) = true) by (vm_compute; reflexivity). rewrite H0 in K. cbn [bind] in K. apply is_ok_ex in K as [c Hc].
  exists c0, c. split; [exact Hc|]. split.
  - assert (K : get (c0 <- sound_setup ;; setup_ir c0 (with_speed 300 50)) (fun c => first_sample (dget (pc_sims (history fresh [Load "a" c; Tick "a" 4])) "a")) = Some (Some 343090)) by (vm_compute; reflexivity).
    rewrite H0 in K. cbn [bind] in K. rewrite Hc in K. cbn [get] in K. injection K as K. exact K.
  - assert (K : get (c0 <- sound_setup ;; setup_ir c0 (with_speed 300 50)) (fun c => first_sample (Some (alone c [4]))) = Some (Some 300100)) by (vm_compute; reflexivity).
    rewrite H0 in K. cbn [bind] in K. rewrite Hc in K. cbn [get] in K. injection K as K. exact K.
Qed.
(** simulators with the same constants but other lengths, interleaved with the first one *)
Example C106_example : exists c0 c, setup_ir c0 (with_speed 343 40) = Ok c /\ Forall (agrees "a" (with_speed 343 40)) [Tick "a" 0; Create "b" c0 (with_speed 343 40); Tick "b" 0; Tick "a" 4] /\
  first_sample (Some (alone c [0; 4])) = Some 343090.
Proof.
  destruct setup_ex as [c0 H0]. assert (K : is_ok (c0 <- sound_setup ;; setup_ir c0 (with_speed 343 40)) = true) by (vm_compute; reflexivity). rewrite H0 in K. cbn [bind] in K. apply is_ok_ex in K as [c Hc].
  exists c0, c. split; [exact Hc|]. split; [repeat (apply Forall_cons; [cbn; try (split; [discriminate|]); repeat split|]); constructor|].
  assert (K : get (c0 <- sound_setup ;; setup_ir c0 (with_speed 343 40)) (fun c => first_sample (Some (alone c [0; 4]))) = Some (Some 343090)) by (vm_compute; reflexivity).
  rewrite H0 in K. cbn [bind] in K. rewrite Hc in K. cbn [get] in K. injection K as K. exact K.
Qed.
End Witness.
Print Assumptions C106_alone_partial.
Print Assumptions C106_created.
Print Assumptions C106_other_refuted.
Print Assumptions C106_loaded_refuted.
