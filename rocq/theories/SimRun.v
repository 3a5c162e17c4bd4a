(** Whole runs: preparation, main loop, diagnostics. *)
Require Import Verif.PyBase Verif.PyLemmas Verif.ConfigModel Verif.ArrayModel Verif.LoggerModel
  Verif.LoggerSpec Verif.LoggerProofs Verif.SimModel Verif.SimSpec Verif.SimRefine.
Set Implicit Arguments.
Ltac Zify.zify_post_hook ::= Z.div_mod_to_equations.

Arguments Z.sub : simpl never.
Arguments Z.add : simpl never.

Section Run.
Context {E : AEnv} {S : SEnv}.
Notation arr := (arr Pos Src).

(* ------------------------------------------------------------------ creation of the signals *)
Definition blank (N : Z) (ds : dims) (s : signals) : Prop :=
  dims_of s = ds /\ NoDup (dkeys s) /\
  forall nm d buf, dget s nm = Some (d, buf) -> buf = zrep N (zeros d).

Lemma dims_of_dset_new (s : signals) k d b : dget s k = None -> dims_of (dset s k (d, b)) = dset (dims_of s) k d.
Proof.
  intros H. rewrite !dset_new; auto.
  - unfold dims_of. rewrite map_app. reflexivity.
  - rewrite dget_dims_of, H; auto.
Qed.
Lemma NoDup_snoc {A} (l : list A) x : NoDup l -> ~ In x l -> NoDup (l ++ [x]).
Proof.
  induction l as [|y l IH]; simpl; intros ND HI.
  - constructor; auto.
  - inversion ND; subst. constructor.
    + rewrite in_app_iff; cbn [In]. intros [HA|[HA|[]]]; auto.
    + apply IH; auto.
Qed.
Lemma create_signal_rel i s ds nm d :
  blank (sim_buffer i + sim_chunk_size i) ds s ->
  res_rel (fun s' ds' => blank (sim_buffer i + sim_chunk_size i) ds' s')
    (create_signal i s nm d) (declare ds (nm, d)).
Proof.
  intros (H1 & H2 & H3). unfold create_signal, declare; simpl.
  assert (Em : dmem ds nm = dmem s nm).
  { unfold dmem. rewrite <- H1, dget_dims_of. destruct (dget s nm) as [[? ?]|]; auto. }
  rewrite Em. destruct (dmem s nm) eqn:E2; simpl; auto.
  assert (E3 : dget s nm = None) by (unfold dmem in E2; destruct (dget s nm); [discriminate|auto]).
  split; [|split].
  - rewrite dims_of_dset_new by auto. rewrite H1; auto.
  - rewrite dkeys_dset_new by auto. apply NoDup_snoc; auto. apply dget_None; auto.
  - intros nm' d' buf'. rewrite dget_dset. destruct (String.eqb_spec nm' nm).
    + intros HH; inversion HH; subst; auto.
    + apply H3.
Qed.
Lemma foldM_map {A B X} (f : A -> B -> res A) (h : X -> B) l : forall a,
  foldM f a (map h l) = foldM (fun a x => f a (h x)) a l.
Proof. induction l as [|x l IH]; simpl; intros; auto. destruct (f a (h x)); simpl; auto. Qed.

Definition all_signals (i : info) (c : coll E) (procs : list proc) : res signals :=
  s <- signals_init i c ;;
  match procs with
  | [] => Ok s
  | p :: _ =>
    foldM (fun s nd => create_signal i s (fst nd) (snd nd)) s
          (filter (fun nd => negb (dmem s (fst nd))) (pr_locals p))
  end.

Lemma all_signals_rel i c procs :
  res_rel (fun s ds => blank (sim_buffer i + sim_chunk_size i) ds s)
    (all_signals i c procs) (ref_dims (save_source_contributions i) c procs).
Proof.
  unfold all_signals, ref_dims, signals_init.
  assert (H0 : res_rel (fun s ds => blank (sim_buffer i + sim_chunk_size i) ds s)
     (foldM (fun s kv => create_signal i s (a_name (snd kv)) (a_num (snd kv))) [] (c_arrays c))
     (foldM declare [] (map (fun kv => (a_name (snd kv), a_num (snd kv))) (c_arrays c)))).
  { rewrite foldM_map. apply foldM_rel.
    - intros s ds [k a] _ HB. simpl. apply create_signal_rel; auto.
    - split; [reflexivity|]. split; [constructor|]. intros nm d b H; inversion H. }
  destruct (foldM (fun s kv => create_signal i s (a_name (snd kv)) (a_num (snd kv))) [] (c_arrays c)) as [s|e];
  destruct (foldM declare [] (map (fun kv => (a_name (snd kv), a_num (snd kv))) (c_arrays c))) as [ds|e'];
    simpl in H0; try tauto.
  cbn [bind].
  assert (H1 : res_rel (fun s ds => blank (sim_buffer i + sim_chunk_size i) ds s)
    (if save_source_contributions i then
       cs <- mic_src_combos c ;;
       foldM (fun s sm => create_signal i s (contrib (a_name (fst sm)) (a_name (snd sm))) (a_num (snd sm))) s cs
     else Ok s)
    (if save_source_contributions i then
       cs <- mic_src_combos c ;;
       foldM declare ds (map (fun sm => (contrib (a_name (fst sm)) (a_name (snd sm)), a_num (snd sm))) cs)
     else Ok ds)).
  { destruct (save_source_contributions i); simpl; auto. apply bind_rel_eq; intros cs _.
    rewrite foldM_map. apply foldM_rel; auto. intros; apply create_signal_rel; auto. }
  eapply bind_rel; [exact H1|]. intros s1 ds1 HB. destruct procs as [|p r]; simpl; auto.
  assert (Ef : filter (fun nd => negb (dmem s1 (fst nd))) (pr_locals p)
             = filter (fun nd => negb (dmem ds1 (fst nd))) (pr_locals p)).
  { apply filter_ext. intros [k d]; simpl. f_equal. destruct HB as (Hd & _ & _).
    unfold dmem. rewrite <- Hd, dget_dims_of. destruct (dget s1 k) as [[? ?]|]; auto. }
  rewrite Ef. apply foldM_rel; auto. intros a b [k d] _ Hab. apply create_signal_rel; auto.
Qed.

Lemma blank_sig_rel N ds s off : 0 <= N -> blank N ds s -> sig_rel N off ds (silence ds) s.
Proof.
  intros HN (H1 & H2 & H3). split; [auto|split; auto]. intros nm d buf Eg.
  rewrite (H3 _ _ _ Eg). split; [rewrite zlen_zrep; lia|].
  intros l Hl. rewrite zget_zrep. destruct (Z.leb_spec 0 l), (Z.ltb_spec l N); try lia; simpl.
  unfold silence. rewrite <- H1, dget_dims_of, Eg. reflexivity.
Qed.
Lemma silence_inv ds T : tl_inv ds T (silence ds).
Proof.
  split.
  - intros nm d t Eg. unfold silence. rewrite Eg. apply zlen_zeros.
  - intros nm d t Eg _. unfold silence. rewrite Eg. auto.
Qed.

(* ------------------------------------------------------------------ first sample(s) *)
Lemma fir_process_len f xs : zlen (snd (fir_process f xs)) = zlen xs.
Proof.
  revert f; induction xs as [|x r IH]; intros f; cbn [fir_process]; auto.
  destruct (fir_step f x) as [f1 y]. specialize (IH f1). destruct (fir_process f1 r) as [f2 ys]. simpl in *.
  rewrite !zlen_cons, IH; auto.
Qed.
Lemma fadd_list_len : forall xs ys zs, fadd_list xs ys = Ok zs -> zlen zs = Z.min (zlen xs) (zlen ys).
Proof.
  assert (Hn : zlen (@nil (@frame E)) = 0) by reflexivity.
  induction xs as [|x xs IH]; intros [|y ys] zs H; cbn [fadd_list] in H.
  1-3: inversion H; subst; rewrite ?zlen_cons, ?Hn; unfold zlen; lia.
  apply bind_ok in H as (z & E1 & H). apply bind_ok in H as (zs' & E2 & H). inversion H; subst.
  rewrite !zlen_cons, (IH _ _ E2). lia.
Qed.
Lemma fadd_tot_ok a y z : fadd a y = Ok z -> fadd_tot a y = z.
Proof. unfold fadd_tot; intros ->; auto. Qed.
Lemma fadd_list_const w y : forall xs, Forall (fun x => zlen x = w) xs ->
  fadd_list xs (zrep (zlen xs) y) =
  match xs with [] => Ok [] | x :: _ => match fadd x y with Ok _ => Ok (map (fun x => fadd_tot x y) xs) | Err e => Err e end end.
Proof.
  induction xs as [|x xs IH]; intros HF; auto.
  assert (Ez : zrep (zlen (x :: xs)) y = y :: zrep (zlen xs) y).
  { unfold zrep. rewrite zlen_cons. pose proof (zlen_nonneg xs).
    replace (Z.to_nat (1 + zlen xs)) with (Datatypes.S (Z.to_nat (zlen xs))) by lia. reflexivity. }
  rewrite Ez. cbn [fadd_list]. inversion HF; subst.
  destruct (fadd x y) as [z|e] eqn:Ef; simpl; auto. rewrite IH by auto.
  destruct xs as [|x2 xs]; simpl.
  - rewrite (fadd_tot_ok _ _ Ef); auto.
  - inversion H2; subst. destruct (@fadd_same_outcome _ x x2 y) as [_ H4]; [congruence|].
    destruct (fadd x2 y) eqn:Ef2; [|congruence]. simpl. rewrite (fadd_tot_ok _ _ Ef). auto.
Qed.

(** the first sample, sources starting at time 0 *)
Lemma run_pair_0_rel i ds (acc : dict (dict fir) * signals) (acc' : dict (dict fir) * timeline) sm :
  let B := sim_buffer i in let N := sim_buffer i + sim_chunk_size i in
  1 <= B -> 0 <= sim_chunk_size i -> wide ds (snd acc') ->
  fst acc = fst acc' /\ sig_rel N (1 - B) ds (snd acc') (snd acc) ->
  res_rel (fun x y => fst x = fst y /\ sig_rel N (1 - B) ds (snd y) (snd x))
    (run_pair i (B - 1) B 0 B acc sm)
    (ref_pair_at_0 (save_source_contributions i) ds acc' sm).
Proof.
  cbv zeta. intros HB HC HW [H1 H2]. destruct acc as [fs s], acc' as [fs' tl]; cbn [fst snd] in H1, H2, HW; subst fs'.
  unfold run_pair, ref_pair_at_0. destruct sm as [sa ma]; cbn [fst snd]. apply bind_rel_eq; intros f _.
  unfold sig_get, dgetE.
  destruct (sig_rel_dget (a_name sa) H2) as [[E1 E2]|(d & buf & E1 & E2 & HL & HG)]; rewrite E1, E2; cbn [bind res_rel fst snd]; auto.
  assert (Es : pyslice buf (sim_buffer i - 1) (sim_buffer i) = [tl (a_name sa) 0]).
  { rewrite (sig_rel_slice _ H2 E1) by lia.
    replace (sim_buffer i - 1 + (1 - sim_buffer i)) with 0 by lia.
    replace (sim_buffer i + (1 - sim_buffer i)) with 1 by lia. reflexivity. }
  rewrite Es. cbn [fir_process]. destruct (fir_step f (tl (a_name sa) 0)) as [f' y].
  apply bind_rel_eq; intros fs' _.
  unfold sig_add, dgetE.
  destruct (sig_rel_dget (a_name ma) H2) as [[E3 E4]|(dm & bufm & E3 & E4 & HLm & HGm)]; rewrite E3, E4; cbn [bind res_rel fst snd]; auto.
  assert (Em : pyslice bufm 0 (sim_buffer i) = map (tl (a_name ma)) (zrange (1 - sim_buffer i) 1)).
  { rewrite (sig_rel_slice _ H2 E3) by lia. f_equal. f_equal; lia. }
  unfold slice_add. rewrite Em. set (fr := map (tl (a_name ma)) (zrange (1 - sim_buffer i) 1)).
  assert (Lf : zlen fr = sim_buffer i) by (unfold fr; rewrite zlen_map, zlen_zrange; lia).
  assert (Wf : Forall (fun x => zlen x = Z.max 0 dm) fr).
  { unfold fr. apply Forall_forall. intros x Hx. apply in_map_iff in Hx as (t & <- & _). apply HW; auto. }
  assert (Ea : (if zlen fr =? zlen [y] then fadd_list fr [y] else fadd_list fr (zrep (zlen fr) y))
             = fadd_list fr (zrep (zlen fr) y)).
  { destruct (Z.eqb_spec (zlen fr) (zlen [y])) as [e|]; auto. rewrite e. reflexivity. }
  rewrite Ea, (fadd_list_const _ Wf).
  destruct fr as [|x0 fr'] eqn:Efr; [rewrite zlen_nil in Lf; lia|].
  assert (Hx0 : zlen x0 = zlen (tl (a_name ma) 0)).
  { apply Forall_inv in Wf. rewrite Wf. symmetry; apply HW; auto. }
  destruct (fadd_same_outcome x0 (tl (a_name ma) 0) y Hx0) as [Ho1 Ho2].
  destruct (fadd x0 y) as [z0|e0] eqn:E5; [|rewrite Ho1; simpl; auto].
  destruct (fadd (tl (a_name ma) 0) y) as [z1|e1] eqn:E6; [|congruence]. cbn [bind].
  rewrite <- Efr. rewrite <- Efr in Lf.
  destruct (@pyslice_set_in _ bufm 0 (sim_buffer i) (map (fun x => fadd_tot x y) fr)) as (buf' & Eb & HL' & HG'); try lia.
  { rewrite zlen_map; lia. }
  rewrite Eb. cbn [bind].
  assert (HR : sig_rel (sim_buffer i + sim_chunk_size i) (1 - sim_buffer i) ds
     (fun nm u => if String.eqb nm (a_name ma) && (u <=? 0) then fadd_tot (tl nm u) y else tl nm u)
     (dset s (a_name ma) (dm, buf'))).
  { eapply sig_rel_dset; eauto; try lia.
    - intros l Hl. rewrite HG', String.eqb_refl. cbn [andb].
      destruct (Z.leb_spec 0 l), (Z.ltb_spec l (sim_buffer i)), (Z.leb_spec (l + (1 - sim_buffer i)) 0); cbn [andb]; try lia; auto.
      replace (l - 0) with l by lia. rewrite zget_map. unfold fr. rewrite zget_map, zget_zrange.
      destruct (Z.leb_spec 0 l), (Z.ltb_spec l (1 - (1 - sim_buffer i))); cbn [andb option_map]; try lia. replace (l + (1 - sim_buffer i)) with (1 - sim_buffer i + l) by lia. reflexivity.
    - intros nm' l Hn Hl. destruct (String.eqb_spec nm' (a_name ma)); [congruence|auto]. }
  eapply bind_rel with (R := fun s' tl' => sig_rel (sim_buffer i + sim_chunk_size i) (1 - sim_buffer i) ds tl' s').
  - destruct (save_source_contributions i); simpl; auto.
    pose proof (@sig_set_rel E _ _ _ _ _ (contrib (a_name sa) (a_name ma)) (sim_buffer i - 1) (sim_buffer i) [y] HR) as HS.
    replace (sim_buffer i - 1 + (1 - sim_buffer i)) with 0 in HS by lia.
    replace (sim_buffer i - (sim_buffer i - 1)) with 1 in HS by lia. apply HS; lia.
  - intros s2 tl2 HR2; simpl; auto.
Qed.

(** the first samples, sources starting before time 0 *)
Lemma run_pair_early_rel i ds (acc : dict (dict fir) * signals) (acc' : dict (dict fir) * timeline) sm :
  let B := sim_buffer i in let N := sim_buffer i + sim_chunk_size i in
  1 <= B -> 0 <= sim_chunk_size i ->
  fst acc = fst acc' /\ sig_rel N (1 - B) ds (snd acc') (snd acc) ->
  res_rel (fun x y => fst x = fst y /\ sig_rel N (1 - B) ds (snd y) (snd x))
    (run_pair i 0 B 0 B acc sm)
    (ref_pair_early (save_source_contributions i) ds B acc' sm).
Proof.
  cbv zeta. intros HB HC [H1 H2]. destruct acc as [fs s], acc' as [fs' tl]; cbn [fst snd] in H1, H2; subst fs'.
  unfold run_pair, ref_pair_early. destruct sm as [sa ma]; cbn [fst snd]. apply bind_rel_eq; intros f _.
  unfold sig_get, dgetE.
  destruct (sig_rel_dget (a_name sa) H2) as [[E1 E2]|(d & buf & E1 & E2 & HL & HG)]; rewrite E1, E2; cbn [bind res_rel fst snd]; auto.
  assert (Es : forall nm d buf, dget s nm = Some (d, buf) ->
     pyslice buf 0 (sim_buffer i) = map (tl nm) (zrange (1 - sim_buffer i) 1)).
  { intros nm d' buf' Eg. rewrite (sig_rel_slice _ H2 Eg) by lia. f_equal. f_equal; lia. }
  rewrite (Es _ _ _ E1).
  pose proof (fir_process_len f (map (tl (a_name sa)) (zrange (1 - sim_buffer i) 1))) as Hlen.
  destruct (fir_process f (map (tl (a_name sa)) (zrange (1 - sim_buffer i) 1))) as [f' ys]. cbn [snd] in Hlen.
  rewrite zlen_map, zlen_zrange in Hlen.
  apply bind_rel_eq; intros fs' _.
  unfold sig_add, dgetE.
  destruct (sig_rel_dget (a_name ma) H2) as [[E3 E4]|(dm & bufm & E3 & E4 & HLm & HGm)]; rewrite E3, E4; cbn [bind res_rel fst snd]; auto.
  unfold slice_add. rewrite (Es _ _ _ E3). rewrite zlen_map, zlen_zrange, Hlen, Z.eqb_refl.
  destruct (fadd_list (map (tl (a_name ma)) (zrange (1 - sim_buffer i) 1)) ys) as [zs|e] eqn:Ez; cbn [bind res_rel]; auto.
  pose proof (fadd_list_len _ _ Ez) as Lz. rewrite zlen_map, zlen_zrange, Hlen in Lz.
  destruct (@pyslice_set_in _ bufm 0 (sim_buffer i) zs) as (buf' & Eb & HL' & HG'); try lia.
  rewrite Eb. cbn [bind].
  assert (HR : sig_rel (sim_buffer i + sim_chunk_size i) (1 - sim_buffer i) ds
     (fun nm u => if String.eqb nm (a_name ma) then
                    match zget zs (u - (1 - sim_buffer i)) with Some z => z | None => tl nm u end else tl nm u)
     (dset s (a_name ma) (dm, buf'))).
  { eapply sig_rel_dset; eauto; try lia.
    - intros l Hl. rewrite HG', String.eqb_refl. 
      replace (l + (1 - sim_buffer i) - (1 - sim_buffer i)) with l by lia. replace (l - 0) with l by lia.
      destruct (Z.leb_spec 0 l), (Z.ltb_spec l (sim_buffer i)); simpl; try lia; auto.
      + destruct (@zget_in_range _ zs l) as [z ->]; auto; lia.
      + rewrite (@zget_out _ zs) by lia. apply HGm; lia.
    - intros nm' l Hn Hl. destruct (String.eqb_spec nm' (a_name ma)); [congruence|auto]. }
  eapply bind_rel with (R := fun s' tl' => sig_rel (sim_buffer i + sim_chunk_size i) (1 - sim_buffer i) ds tl' s').
  - destruct (save_source_contributions i); simpl; auto.
    pose proof (@sig_set_rel E _ _ _ _ _ (contrib (a_name sa) (a_name ma)) 0 (sim_buffer i) ys HR) as HS.
    replace (0 + (1 - sim_buffer i)) with (1 - sim_buffer i) in HS by lia.
    replace (sim_buffer i - 0) with (sim_buffer i) in HS by lia. apply HS; lia.
  - intros s2 tl2 HR2; simpl; auto.
Qed.

(** width and silence ahead are kept by the first sample(s) *)
Lemma ref_pair_at_0_inv ct ds acc sm acc' : tl_inv ds 1 (snd acc) ->
  ref_pair_at_0 ct ds acc sm = Ok acc' -> tl_inv ds 1 (snd acc').
Proof.
  intros [HW HQ] H. destruct acc as [fs tl]. unfold ref_pair_at_0 in H.
  apply bind_ok in H as (f & _ & H). apply bind_ok in H as (d & _ & H).
  destruct (fir_step f _) as [f' y]. apply bind_ok in H as (fs' & _ & H).
  apply bind_ok in H as (dm & Edm & H). apply bind_ok in H as (z & E1 & H).
  apply bind_ok in H as (tl2 & E2 & H). inversion H; subst; simpl in *.
  set (tl1 := fun nm u => if String.eqb nm (a_name (snd sm)) && (u <=? 0) then fadd_tot (tl nm u) y else tl nm u) in E2.
  assert (tl_inv ds 1 tl1) as [HW1 HQ1].
  { split.
    - intros nm d0 t Eg. unfold tl1. destruct (String.eqb_spec nm (a_name (snd sm))); simpl; auto.
      destruct (t <=? 0); auto. unfold fadd_tot. destruct (fadd (tl nm t) y) eqn:Ef; auto.
      apply fadd_len in Ef. rewrite Ef; auto.
    - intros nm d0 t Eg Ht. unfold tl1. destruct (Z.leb_spec t 0); [lia|]. rewrite andb_false_r. auto. }
  destruct ct; [|inversion E2; subst; split; auto].
  split; [eapply tl_write_wide; eauto|eapply tl_write_quiet; eauto; lia].
Qed.
Lemma fadd_list_In : forall xs ys zs z w, fadd_list xs ys = Ok zs -> Forall (fun x => zlen x = w) xs -> In z zs -> zlen z = w.
Proof.
  induction xs as [|x xs IH]; intros [|y ys] zs z w H HF HI; cbn [fadd_list] in H; try (inversion H; subst; destruct HI).
  apply bind_ok in H as (z1 & E1 & H). apply bind_ok in H as (zs' & E2 & H). inversion H; subst. inversion HF; subst.
  destruct HI as [<-|HI]; [apply fadd_len in E1; congruence|eauto].
Qed.
Lemma ref_pair_early_inv ct ds n acc sm acc' : 0 <= n -> tl_inv ds 1 (snd acc) ->
  ref_pair_early ct ds n acc sm = Ok acc' -> tl_inv ds 1 (snd acc').
Proof.
  intros Hn [HW HQ] H. destruct acc as [fs tl]. unfold ref_pair_early in H.
  apply bind_ok in H as (f & _ & H). apply bind_ok in H as (d & _ & H).
  pose proof (fir_process_len f (map (tl (a_name (fst sm))) (zrange (1 - n) 1))) as Hlen.
  destruct (fir_process f _) as [f' ys]. cbn [snd] in Hlen. rewrite zlen_map, zlen_zrange in Hlen.
  apply bind_ok in H as (fs' & _ & H).
  apply bind_ok in H as (dm & Edm & H). apply bind_ok in H as (zs & E1 & H).
  apply bind_ok in H as (tl2 & E2 & H). inversion H; subst; simpl in *.
  set (tl1 := fun nm u => if String.eqb nm (a_name (snd sm)) then
     match zget zs (u - (1 - n)) with Some z => z | None => tl nm u end else tl nm u) in E2.
  assert (tl_inv ds 1 tl1) as [HW1 HQ1].
  { split.
    - intros nm d0 t Eg. unfold tl1. destruct (String.eqb_spec nm (a_name (snd sm))); simpl; auto.
      destruct (zget zs (t - (1 - n))) eqn:Ez; auto. apply zget_In in Ez.
      eapply fadd_list_In; [exact E1| |exact Ez]. apply Forall_forall. intros x Hx.
      apply in_map_iff in Hx as (u & <- & _). subst nm; apply HW; auto.
    - intros nm d0 t Eg Ht. unfold tl1. destruct (String.eqb nm (a_name (snd sm))); auto.
      rewrite zget_out; auto. apply fadd_list_len in E1. rewrite E1, Hlen. lia. }
  destruct ct; [|inversion E2; subst; split; auto].
  split; [eapply tl_write_wide; eauto|eapply tl_write_quiet; eauto; lia].
Qed.

(** foldM_rel with an invariant of the right-hand side *)
Lemma foldM_rel_inv {A B X} (R : A -> B -> Prop) (P : B -> Prop) (f : A -> X -> res A) (g : B -> X -> res B) l :
  (forall a b x, In x l -> R a b -> P b -> res_rel R (f a x) (g b x)) ->
  (forall b x b', In x l -> P b -> g b x = Ok b' -> P b') ->
  forall a b, R a b -> P b -> res_rel (fun a b => R a b /\ P b) (foldM f a l) (foldM g b l).
Proof.
  induction l as [|x l IH]; simpl; intros H HP a b Hab HPb; auto.
  pose proof (H a b x (or_introl eq_refl) Hab HPb) as Hr. pose proof (HP b x) as Hp.
  destruct (f a x) as [a'|], (g b x) as [b'|]; simpl in *; try tauto.
  apply IH; auto. intros; eapply HP; eauto.
Qed.

Lemma prepare_rel i c procs ds s0 :
  1 <= sim_buffer i -> 0 <= sim_chunk_size i ->
  blank (sim_buffer i + sim_chunk_size i) ds s0 ->
  res_rel (fun x y => fst (fst x) = r_coll y /\ snd x = r_flt y /\ r_procs y = procs /\
             sig_rel (sim_buffer i + sim_chunk_size i) (1 - sim_buffer i) ds (r_tl y) (snd (fst x)) /\
             tl_inv ds 1 (r_tl y))
    (fs <- filters_init c ;; prop_prepare i c s0 fs)
    (ref_prepare (save_source_contributions i) (early_start i) ds c procs).
Proof.
  intros HB HC HBl. unfold ref_prepare, prop_prepare, early_start. apply bind_rel_eq; intros fs _.
  assert (HS : sig_rel (sim_buffer i + sim_chunk_size i) (1 - sim_buffer i) ds (silence ds) s0)
    by (apply blank_sig_rel; auto; lia).
  destruct (start_sources_before_0 i).
  - eapply bind_rel.
    + apply (@foldM_rel_inv (coll E * signals) (coll E * timeline) string
        (fun x y => fst x = fst y /\ sig_rel (sim_buffer i + sim_chunk_size i) (1 - sim_buffer i) ds (snd y) (snd x))
        (fun y => tl_inv ds 1 (snd y))).
      * intros a b x _ Hab _.
        assert (H := @run_free_rel E (sim_buffer i + sim_chunk_size i) (1 - sim_buffer i) ds (sim_buffer i) (sim_buffer i - sim_buffer i) (sim_buffer i) a b x).
        replace (sim_buffer i - sim_buffer i + (1 - sim_buffer i)) with (1 - sim_buffer i) in H by lia.
        apply H; auto; lia.
      * intros b x b' _ HI Hr. eapply ref_free_inv; try exact Hr; auto; lia.
      * simpl; auto.
      * simpl. apply silence_inv.
    + intros [c1 s1] [c2 tl1] [[Hc HR1] HI1]. cbn [fst snd] in Hc, HR1, HI1. subst c2.
      apply bind_rel_eq; intros combos _. replace (sim_buffer i - sim_buffer i) with 0 by lia.
      eapply bind_rel.
      * apply (@foldM_rel_inv (dict (dict fir) * signals) (dict (dict fir) * timeline) (arr * arr)
          (fun x y => fst x = fst y /\ sig_rel (sim_buffer i + sim_chunk_size i) (1 - sim_buffer i) ds (snd y) (snd x))
          (fun y => tl_inv ds 1 (snd y))); [| |simpl; eauto|simpl; auto].
        -- intros a b x _ Hab _. apply run_pair_early_rel; auto.
        -- intros b x b' _ HI Hr. eapply ref_pair_early_inv; try exact Hr; auto; lia.
      * intros [f1 s2] [f2 tl2] [[Hf HR2] HI2]; simpl in *; subst; auto.
  - eapply bind_rel.
    + apply (@foldM_rel_inv (coll E * signals) (coll E * timeline) string
        (fun x y => fst x = fst y /\ sig_rel (sim_buffer i + sim_chunk_size i) (1 - sim_buffer i) ds (snd y) (snd x))
        (fun y => tl_inv ds 1 (snd y))).
      * intros a b x _ Hab _.
        assert (H := @run_free_rel E (sim_buffer i + sim_chunk_size i) (1 - sim_buffer i) ds 1 (sim_buffer i - 1) (sim_buffer i) a b x).
        replace (sim_buffer i - 1 + (1 - sim_buffer i)) with 0 in H by lia.
        apply H; auto; lia.
      * intros b x b' _ HI Hr. eapply ref_free_inv; try exact Hr; auto; lia.
      * simpl; auto.
      * simpl. apply silence_inv.
    + intros [c1 s1] [c2 tl1] [[Hc HR1] HI1]. cbn [fst snd] in Hc, HR1, HI1. subst c2.
      apply bind_rel_eq; intros combos _.
      eapply bind_rel.
      * apply (@foldM_rel_inv (dict (dict fir) * signals) (dict (dict fir) * timeline) (arr * arr)
          (fun x y => fst x = fst y /\ sig_rel (sim_buffer i + sim_chunk_size i) (1 - sim_buffer i) ds (snd y) (snd x))
          (fun y => tl_inv ds 1 (snd y))); [| |simpl; eauto|simpl; auto].
        -- intros a b x _ Hab HI. apply run_pair_0_rel; auto. apply HI.
        -- intros b x b' _ HI Hr. eapply ref_pair_at_0_inv; try exact Hr; auto.
      * intros [f1 s2] [f2 tl2] [[Hf HR2] HI2]; simpl in *; subst; auto.
Qed.

End Run.
