(** Properties of file and folder names: C34, C35, C36. *)
Require Import Verif.PyBase Verif.PyLemmas Verif.PyStr Verif.PyStrLemmas Verif.FileModel.
Set Implicit Arguments.
Local Open Scope string_scope.
Local Open Scope list_scope.
Local Open Scope Z_scope.

(* ------------------------------------------------------------------ C34 *)
(** the names of the folders: base_0, base_1, ... *)
Definition folder (prefix time : string) (m : nat) : string := (prefix ++ time ++ "_" ++ py_str (Z.of_nat m))%string.
Lemma folder_inj prefix time a b : folder prefix time a = folder prefix time b -> a = b.
Proof. intros H. unfold folder in H. do 3 apply sapp_inv_head in H. apply py_str_inj in H; lia. Qed.
Lemma folder_cut prefix time m j : (sprefix (folder prefix time m) (slen (folder prefix time 0) - 2) ++ "_" ++ py_str (Z.of_nat j))%string = folder prefix time j.
Proof.
  unfold folder at 1. rewrite (sapp_assoc prefix time). rewrite sprefix_app; [unfold folder; rewrite !sapp_assoc; auto|].
  unfold folder. rewrite !slen_app. change (py_str (Z.of_nat 0)) with "0". change (slen "_") with 1. change (slen "0") with 1. lia.
Qed.
Lemma folder_loop_spec dir prefix time : forall k j, (forall m, (m < j)%nat -> In (folder prefix time m) dir) -> (length dir < k + j)%nat ->
  exists m, folder_loop k dir (folder prefix time j) (slen (folder prefix time 0) - 2) (Z.of_nat j + 1) = Ok (folder prefix time m) /\ ~ In (folder prefix time m) dir /\
    forall m', (m' < m)%nat -> In (folder prefix time m') dir.
Proof.
  induction k as [|k IH]; intros j Hj Hk.
  - exfalso. pose proof (@pigeon (folder prefix time) dir j (@folder_inj prefix time) Hj). lia.
  - cbn [folder_loop]. destruct (smem (folder prefix time j) dir) eqn:Q.
    + apply smem_spec in Q. destruct (IH (S j)) as (m & E & K); [intros m Hm; destruct (Nat.eq_dec m j) as [->|]; [auto|apply Hj; lia]|lia|]. exists m. split; auto. rewrite <- E.
      replace (Z.of_nat j + 1) with (Z.of_nat (S j)) by lia. rewrite folder_cut. reflexivity.
    + exists j. split; [auto|]. split; auto. apply smem_false. auto.
Qed.
(** C34: the search ends, with the first number that is free *)
Theorem C34_unique prefix time dir :
  exists m, get_unique_folder_name prefix time dir = Ok (folder prefix time m) /\ ~ In (folder prefix time m) dir /\ forall m', (m' < m)%nat -> In (folder prefix time m') dir.
Proof.
  unfold get_unique_folder_name. change (prefix ++ time ++ "_0")%string with (folder prefix time 0). destruct (smem (folder prefix time 0) dir) eqn:Q.
  - apply smem_spec in Q. destruct (@folder_loop_spec dir prefix time (S (S (length dir))) 0) as (m & E & K); [intros; lia|lia|]. exists m. split; auto.
  - exists 0%nat. split; [auto|]. split; [apply smem_false; auto|intros; lia].
Qed.
Example C34_example : get_unique_folder_name "figs_" "2024_01_02" ["figs_2024_01_02_0"; "figs_2024_01_02_2"; "other"; "figs_2024_01_02_1"] = Ok "figs_2024_01_02_3".
Proof. vm_compute. reflexivity. Qed.
Print Assumptions C34_unique.

(* ------------------------------------------------------------------ C35 *)
(** several names: the numbers follow the first free one; all names differ and the first one is unused *)
Theorem C35_names_partial prefix time dir n : 0 <= n ->
  exists m, get_multiple_unique_folder_names prefix time dir n = Ok (map (fun i => folder prefix time (m + i)) (seq 0 (Z.to_nat n))) /\
    ~ In (folder prefix time m) dir /\ (forall m', (m' < m)%nat -> In (folder prefix time m') dir) /\ NoDup (map (fun i => folder prefix time (m + i)) (seq 0 (Z.to_nat n))).
Proof.
  intros Hn. destruct (C34_unique prefix time dir) as (m & E & K1 & K2). exists m. split; [|split; [auto|split; [auto|]]].
  - unfold get_multiple_unique_folder_names. rewrite E. cbn [bind]. destruct (@py_str_nonneg (Z.of_nat m)) as (A & N & _); [lia|].
    assert (Hr : last_part "_" (folder prefix time m) = py_str (Z.of_nat m)).
    { unfold last_part, folder. rewrite (sapp_assoc prefix time). change ("_" ++ py_str (Z.of_nat m))%string with (String "_" (py_str (Z.of_nat m))). rewrite rsplit_app; auto. apply digit_not; auto. }
    rewrite Hr. rewrite py_int_str by lia. cbn [bind]. f_equal. unfold zrange. rewrite map_map, Z.sub_0_r. apply map_ext. intros i.
    unfold folder at 1. rewrite !sapp_assoc. rewrite sprefix_app; [|unfold folder; rewrite !slen_app; lia]. unfold folder. rewrite !sapp_assoc. do 2 f_equal. lia.
  - apply FinFun.Injective_map_NoDup; [|apply seq_NoDup]. intros a b H. apply folder_inj in H. lia.
Qed.
(** none of the names exists if no folder with a number above a free one exists *)
Theorem C35_unused_partial prefix time dir n names : 0 <= n -> get_multiple_unique_folder_names prefix time dir n = Ok names ->
  (forall a b, (a < b)%nat -> In (folder prefix time b) dir -> In (folder prefix time a) dir) -> forall x, In x names -> ~ In x dir.
Proof.
  intros Hn E G x Hx Hd. destruct (@C35_names_partial prefix time dir n Hn) as (m & E' & K & _). rewrite E in E'. inversion E'; subst names. apply in_map_iff in Hx as (i & <- & Hi).
  apply K. destruct i; [replace (m + 0)%nat with m in Hd by lia; auto|]. apply (G m (m + S i)%nat); [lia|auto].
Qed.
(** C35 is false in general: only the first of the names is checked *)
Theorem C35_unused_refuted : exists prefix time dir names x, get_multiple_unique_folder_names prefix time dir 2 = Ok names /\ In x names /\ In x dir.
Proof. exists "f_", "t", ["f_t_1"], ["f_t_0"; "f_t_1"], "f_t_1". split; [vm_compute; reflexivity|]. split; simpl; auto. Qed.
Example C35_example : get_multiple_unique_folder_names "f_" "t" ["f_t_0"; "f_t_1"] 3 = Ok ["f_t_2"; "f_t_3"; "f_t_4"] /\
  (forall a b, (a < b)%nat -> In (folder "f_" "t" b) ["f_t_0"; "f_t_1"] -> In (folder "f_" "t" a) ["f_t_0"; "f_t_1"]).
Proof.
  split; [vm_compute; reflexivity|]. intros a b Hab H. change "f_t_0" with (folder "f_" "t" 0) in *. change "f_t_1" with (folder "f_" "t" 1) in *.
  destruct H as [H|[H|[]]]; apply folder_inj in H; subst; [lia|]. left. f_equal. lia.
Qed.
Print Assumptions C35_names_partial.
Print Assumptions C35_unused_partial.
Print Assumptions C35_unused_refuted.

(* ------------------------------------------------------------------ C36 *)
(** the export number k of a diagnostic *)
Definition export_file (name : string) (k : Z) : string := (name ++ "_" ++ py_str k ++ ".npz")%string.
(** [f] is called name_digits plus any suffix, where the digits stand for k: an export of that name or a file that looks like one *)
Definition numbered (name f : string) (k : Z) : Prop :=
  exists ds, all_digits ds = true /\ ds <> "" /\ digits_val 0 ds = k /\ path_stem f = (name ++ "_" ++ ds)%string.
(** name_digits.npz *)
Definition like_export (name f : string) (k : Z) : Prop :=
  exists ds, all_digits ds = true /\ ds <> "" /\ digits_val 0 ds = k /\ f = (name ++ "_" ++ ds ++ ".npz")%string.

Lemma isdigit_iff s : isdigit s = true <-> all_digits s = true /\ s <> "".
Proof. unfold isdigit. destruct s; split; intros H; try discriminate; [destruct H as [_ H]; congruence|split; [auto|discriminate]|tauto]. Qed.
Lemma numbered_det name f k k' : numbered name f k -> numbered name f k' -> k = k'.
Proof. intros (ds & _ & _ & <- & E) (ds' & _ & _ & <- & E'). rewrite E in E'. do 2 apply sapp_inv_head in E'. congruence. Qed.
Lemma digits_nonneg ds : all_digits ds = true -> 0 <= digits_val 0 ds.
Proof.
  assert (K : forall s v, 0 <= v -> all_digits s = true -> 0 <= digits_val v s); [|intros; apply K; auto; lia].
  induction s as [|c s IH]; intros v Hv H; simpl; [lia|]. cbn [all_digits] in H. apply andb_prop in H as [H1 H2]. apply IH; auto. unfold is_digit in H1. lia.
Qed.
(** what find_all_earlier_files does for one entry *)
Lemma entry_cases name f : (exists k, numbered name f k) \/ (forall k, ~ numbered name f k) /\ (startswith (path_stem f) (name ++ "_")%string && isdigit (sdrop (path_stem f) (slen (name ++ "_")%string)))%bool = false.
Proof.
  destruct (startswith (path_stem f) (name ++ "_")%string && isdigit (sdrop (path_stem f) (slen (name ++ "_")%string)))%bool eqn:Q.
  - left. apply andb_prop in Q as [Q1 Q2]. apply startswith_iff in Q1 as (r & Q1). rewrite Q1, sdrop_app in Q2 by auto. apply isdigit_iff in Q2 as [A N]. exists (digits_val 0 r), r. rewrite Q1, <- sapp_assoc. auto.
  - right. split; auto. intros k (ds & A & N & V & E). rewrite E, sapp_assoc in Q. rewrite sdrop_app in Q by auto. rewrite (proj2 (isdigit_iff ds)) in Q by auto. rewrite (proj2 (startswith_iff _ _)) in Q by (eexists; eauto). discriminate.
Qed.
Lemma entry_numbered name f k : numbered name f k -> (startswith (path_stem f) (name ++ "_")%string && isdigit (sdrop (path_stem f) (slen (name ++ "_")%string)))%bool = true /\ py_int (sdrop (path_stem f) (slen (name ++ "_")%string)) = Ok k.
Proof.
  intros (ds & A & N & V & E). rewrite E, sapp_assoc, sdrop_app by auto. unfold py_int. rewrite (proj2 (isdigit_iff ds)) by auto. rewrite (proj2 (startswith_iff _ _)) by (eexists; eauto). rewrite V. auto.
Qed.
Lemma earlier_spec dir name idx : (forall f k, In f dir -> numbered name f k -> k <= idx) ->
  exists e, find_all_earlier_files dir name idx false true = Ok e /\ forall f, In f e <-> In f dir /\ exists k, numbered name f k /\ k < idx.
Proof.
  unfold find_all_earlier_files. induction dir as [|f dir IH] using rev_ind; intros H.
  - exists []. split; auto. intros f. simpl. tauto.
  - destruct IH as (e & E & K); [intros g k Hg; apply H; apply in_or_app; auto|]. rewrite foldM_app, E. cbn [bind foldM].
    destruct (entry_cases name f) as [(k & Hk)|[Hn Hc]].
    + destruct (entry_numbered Hk) as [C1 C2]. rewrite C1, C2. cbn [bind]. pose proof (H f k ltac:(apply in_or_app; right; left; auto) Hk) as Hle. destruct (Z.ltb_spec idx k); [lia|]. destruct (Z.eqb_spec k idx).
      * cbn [bind]. exists e. split; auto. intros g. rewrite in_app_iff, K. split; [intros [A B]; auto|]. intros [[A|[->|[]]] (k' & B1 & B2)]; [eauto|]. pose proof (numbered_det Hk B1). lia.
      * cbn [bind]. exists (e ++ [f]). split; auto. intros g. rewrite !in_app_iff, K. split.
        -- intros [[A B]|[->|[]]]; [auto|]. split; [right; left; auto|]. exists k. split; auto. lia.
        -- intros [[A|[->|[]]] B]; [auto|]. right. left. auto.
    + rewrite Hc. cbn [bind]. exists e. split; auto. intros g. rewrite in_app_iff, K. split; [intros [A B]; auto|]. intros [[A|[->|[]]] (k' & B1 & B2)]; [eauto|]. exfalso. eapply Hn; eauto.
Qed.
Lemma earlier_error dir name idx f k : In f dir -> numbered name f k -> idx < k -> find_all_earlier_files dir name idx false true = Err ValueError.
Proof.
  intros Hf Hk Hl. apply in_split in Hf as (a & b & ->). unfold find_all_earlier_files. revert b. 
  assert (K : forall a acc, foldM (fun earlier f => if startswith (path_stem f) (name ++ "_")%string && isdigit (sdrop (path_stem f) (slen (name ++ "_")%string)) then
      f_idx <- py_int (sdrop (path_stem f) (slen (name ++ "_")%string)) ;; if idx <? f_idx then Err ValueError else if f_idx =? idx then Ok earlier else Ok (earlier ++ [f]) else Ok earlier) acc a = Err ValueError \/
     exists e, foldM (fun earlier f => if startswith (path_stem f) (name ++ "_")%string && isdigit (sdrop (path_stem f) (slen (name ++ "_")%string)) then
      f_idx <- py_int (sdrop (path_stem f) (slen (name ++ "_")%string)) ;; if idx <? f_idx then Err ValueError else if f_idx =? idx then Ok earlier else Ok (earlier ++ [f]) else Ok earlier) acc a = Ok e).
  { induction a0 as [|g a0 IH]; intros acc; cbn [foldM]; [right; eauto|]. destruct (entry_cases name g) as [(k' & Hk')|[_ ->]].
    - destruct (entry_numbered Hk') as [-> ->]. cbn [bind]. destruct (idx <? k'); [left; auto|]. destruct (k' =? idx); apply IH.
    - apply IH. }
  intros b. rewrite foldM_app. destruct (K a []) as [->|(e & ->)]; [auto|]. cbn [bind foldM]. destruct (entry_numbered Hk) as [-> ->]. cbn [bind]. destruct (Z.ltb_spec idx k); [auto|lia].
Qed.

Lemma npz_stem x : x <> "" -> path_stem (x ++ ".npz")%string = x /\ path_suffix (x ++ ".npz")%string = ".npz".
Proof.
  intros H. unfold path_stem, path_suffix, stem_suffix. change ".npz" with (String "." "npz") at 1 3. rewrite rsplit_app.
  - destruct x; [congruence|]. auto.
  - intros a b K. destruct a as [|? [|? [|? [|? a]]]]; inversion K.
Qed.
Lemma npz_inv f : path_suffix f = ".npz" -> f = (path_stem f ++ ".npz")%string.
Proof.
  unfold path_suffix, path_stem, stem_suffix. destruct (rsplit "." f) as [[a b]|] eqn:Q; [|discriminate]. destruct (_ || _)%bool; [discriminate|]. simpl. intros H. inversion H; subst. apply rsplit_some in Q as [Q _]. exact Q.
Qed.
Lemma like_numbered name f k : like_export name f k <-> numbered name f k /\ path_suffix f = ".npz".
Proof.
  split.
  - intros (ds & A & N & V & ->). assert (X : (name ++ "_" ++ ds ++ ".npz" = (name ++ "_" ++ ds) ++ ".npz")%string) by (rewrite !sapp_assoc; auto).
    destruct (@npz_stem (name ++ "_" ++ ds)%string) as [S1 S2]; [destruct name; discriminate|]. rewrite X. split; auto. exists ds. auto.
  - intros [(ds & A & N & V & E) S]. exists ds. repeat split; auto. rewrite (npz_inv _ S), E, <- !sapp_assoc. auto.
Qed.
Lemma export_like name k : 0 <= k -> like_export name (export_file name k) k.
Proof. intros H. destruct (py_str_nonneg H) as (A & N & V). exists (py_str k). auto. Qed.
Lemma export_inj name a b : 0 <= a -> 0 <= b -> export_file name a = export_file name b -> a = b.
Proof. intros Ha Hb H. pose proof (export_like name Ha) as A. pose proof (export_like name Hb) as B. rewrite H in A. apply like_numbered in A as [A _], B as [B _]. eapply numbered_det; eauto. Qed.
Lemma like_other name name' f k k' : like_export name f k -> like_export name' f k' -> name = name'.
Proof.
  intros (ds & A & _ & _ & ->) (ds' & A' & _ & _ & E). rewrite !sapp_assoc in E.
  assert (E2 : (name ++ "_" ++ ds = name' ++ "_" ++ ds')%string).
  { rewrite <- !sapp_assoc in E. apply (f_equal path_stem) in E. replace (name ++ "_" ++ ds ++ ".npz")%string with ((name ++ "_" ++ ds) ++ ".npz")%string in E by (rewrite !sapp_assoc; auto).
    replace (name' ++ "_" ++ ds' ++ ".npz")%string with ((name' ++ "_" ++ ds') ++ ".npz")%string in E by (rewrite !sapp_assoc; auto).
    rewrite (proj1 (@npz_stem (name ++ "_" ++ ds)%string ltac:(destruct name; discriminate))), (proj1 (@npz_stem (name' ++ "_" ++ ds')%string ltac:(destruct name'; discriminate))) in E. auto. }
  apply (@split_digits "_" name name' ds ds'); auto.
Qed.

Lemma dget_remove d k k' : dget (dremove d k) k' = if String.eqb k' k then None else dget d k'.
Proof.
  unfold dremove. induction d as [|[x v] d IH]; cbn [filter fst]; [simpl; destruct (String.eqb k' k); auto|]. destruct (String.eqb_spec x k) as [Hx|Hx]; cbn [negb dget]; rewrite IH.
  - subst x. destruct (String.eqb_spec k' k); auto.
  - destruct (String.eqb_spec k' x) as [Hk|]; auto. destruct (String.eqb_spec k' k); congruence.
Qed.
(** the directories while the files are deleted *)
Lemma deleting l : forall (acc : list files) (d : files), exists steps,
  fold_left (fun acc f => let d := dremove (snd acc) f in (fst acc ++ [d], d)) l (acc, d) = (acc ++ steps, last steps d) /\
  (forall d', In d' steps -> forall f, dget d' f = dget d f \/ dget d' f = None /\ In f l) /\
  (forall f, dget (last steps d) f = if in_dec string_dec f l then None else dget d f).
Proof.
  induction l as [|x l IH]; intros acc d; cbn [fold_left].
  - exists []. rewrite app_nil_r. split; [auto|]. split; [intros d' []|]. intros f. destruct (in_dec string_dec f []) as [[]|]; auto.
  - destruct (IH (acc ++ [dremove d x]) (dremove d x)) as (steps & E & K1 & K2). exists (dremove d x :: steps).
    assert (L : last (dremove d x :: steps) d = last steps (dremove d x)).
    { clear. destruct steps as [|s steps]; auto. change (last (dremove d x :: s :: steps) d) with (last (s :: steps) d). revert s. induction steps as [|t steps IH]; intros s; auto. change (last (t :: steps) d = last (t :: steps) (dremove d x)). apply IH. }
    rewrite L. split; [etransitivity; [exact E|]; rewrite <- app_assoc; auto|]. split.
    + intros d' [<-|H] f.
      * rewrite dget_remove. destruct (String.eqb_spec f x) as [->|]; auto. right. split; auto. left. auto.
      * destruct (K1 d' H f) as [Q|[Q1 Q2]]; [|right; split; [auto|right; auto]]. rewrite Q, dget_remove. destruct (String.eqb_spec f x) as [->|]; auto. right. split; auto. left. auto.
    + intros f. rewrite K2, dget_remove. destruct (in_dec string_dec f l) as [H|H], (in_dec string_dec f (x :: l)) as [H'|H']; auto.
      * exfalso. apply H'. right. auto.
      * destruct H' as [->|H']; [rewrite String.eqb_refl; auto|contradiction].
      * destruct (String.eqb_spec f x) as [->|]; auto. exfalso. apply H'. left. auto.
Qed.

Lemma last_indep {A} (l : list A) x y : l <> [] -> last l x = last l y.
Proof. induction l as [|a [|b l] IH]; intros H; auto; [congruence|]. change (last (b :: l) x = last (b :: l) y). apply IH. discriminate. Qed.
(** an older file of that form *)
Definition older (name : string) (idx : Z) (f : string) : Prop := exists k, like_export name f k /\ k < idx.
(** no file of that name, whatever its suffix, has a later number *)
Definition none_later (name : string) (idx : Z) (d : files) : Prop := forall f k, In f (dkeys d) -> numbered name f k -> k <= idx.
Lemma older_dec name idx f : older name idx f \/ ~ older name idx f.
Proof.
  destruct (entry_cases name f) as [(k & H)|[H _]].
  - destruct (string_dec (path_suffix f) ".npz") as [S|S].
    + destruct (Z.lt_ge_cases k idx) as [L|L]; [left; exists k; split; auto; apply like_numbered; auto|]. right. intros (k' & H' & L'). apply like_numbered in H' as [H' _]. pose proof (numbered_det H H'). lia.
    + right. intros (k' & H' & _). apply like_numbered in H' as [_ H']. auto.
  - right. intros (k & K & _). apply like_numbered in K as [K _]. apply (H k). auto.
Qed.
Lemma dkeys_dset_In (d : files) k v x : In x (dkeys (dset d k v)) <-> x = k \/ In x (dkeys d).
Proof.
  destruct (dget d k) eqn:Q.
  - rewrite (dkeys_dset_mem d k v Q). split; auto. intros [->|]; auto. apply dget_In in Q. apply (in_map fst) in Q. auto.
  - rewrite dkeys_dset_new by auto. rewrite in_app_iff. simpl. split; [intros [|[|[]]]; auto|intros [|]; auto].
Qed.
Lemma savenpz_spec name idx d : 0 <= idx -> none_later name idx d ->
  exists mid res, savenpz true name idx d = (mid ++ [res], Ok tt) /\
    dget res (export_file name idx) = Some true /\
    (forall f, f <> export_file name idx -> older name idx f -> dget res f = None) /\
    (forall d', In d' (mid ++ [res]) -> dget d' (export_file name idx) = Some true \/ forall f, f <> export_file name idx -> dget d' f = dget d f) /\
    (forall d', In d' (mid ++ [res]) -> forall f, f <> export_file name idx -> ~ older name idx f -> dget d' f = dget d f).
Proof.
  intros Hi Hn. unfold savenpz. fold (export_file name idx). set (file := export_file name idx) in *. set (d1 := dset d file false). set (d2 := dset d1 file true).
  assert (G2 : forall f, dget d2 f = if String.eqb f file then Some true else dget d f) by (intros f; unfold d2, d1; rewrite !dget_dset; destruct (String.eqb f file); auto).
  destruct (@earlier_spec (dkeys d2) name idx) as (e & E & K).
  { intros f k Hf Hk. unfold d2, d1 in Hf. rewrite !dkeys_dset_In in Hf. assert (f = file \/ In f (dkeys d)) as [->|Hf'] by tauto; [|eapply Hn; eauto].
    pose proof (export_like name Hi) as L. apply like_numbered in L as [L _]. pose proof (numbered_det Hk L). lia. }
  rewrite E. set (del := filter (fun f => String.eqb (path_suffix f) ".npz") e).
  assert (Hdel : forall f, In f del <-> In f (dkeys d2) /\ older name idx f).
  { intros f. unfold del. rewrite filter_In, K. split.
    - intros [[A (k & B & C)] D]. apply String.eqb_eq in D. split; auto. exists k. split; auto. apply like_numbered. auto.
    - intros [A (k & B & C)]. apply like_numbered in B as [B D]. rewrite D. repeat split; eauto. }
  assert (Hfile : ~ In file del). { intros H. apply Hdel in H as [_ (k & B & C)]. pose proof (export_like name Hi) as L. apply like_numbered in L as [L _], B as [B _]. pose proof (numbered_det B L). lia. }
  destruct (deleting del [d2] d2) as (steps & F & S1 & S2).
  match goal with |- context [fold_left ?G ?l ?a] => assert (F' : fold_left G l a = ([d2] ++ steps, last steps d2)) by exact F; rewrite F' end. cbn [fst].
  assert (Hsplit : exists mid, [d; d1] ++ [d2] ++ steps = mid ++ [last steps d2]).
  { destruct steps as [|s steps] using rev_ind; [exists [d; d1]; auto|]. exists ([d; d1; d2] ++ steps). rewrite last_last, <- app_assoc. auto. }
  destruct Hsplit as (mid & Hm). exists mid, (last steps d2). rewrite Hm. split; [auto|]. split; [|split; [|split]].
  - rewrite S2. destruct (in_dec string_dec file del); [contradiction|]. rewrite G2, String.eqb_refl. auto.
  - intros f Hf Ho. rewrite S2. destruct (in_dec string_dec f del) as [|N]; auto. rewrite Hdel in N. destruct (dget d2 f) eqn:Q; auto. exfalso. apply N. split; auto. apply dget_In in Q. apply (in_map fst) in Q. auto.
  - intros d' H. rewrite <- Hm in H. destruct H as [<-|[<-|[<-|H]]].
    + right. auto.
    + right. intros f Hf. unfold d1. rewrite dget_dset_other; auto.
    + left. rewrite G2, String.eqb_refl. auto.
    + left. destruct (S1 d' H file) as [Q|[_ Q]]; [rewrite Q, G2, String.eqb_refl; auto|contradiction].
  - intros d' H f Hf Ho. rewrite <- Hm in H. destruct H as [<-|[<-|[<-|H]]].
    + auto.
    + unfold d1. rewrite dget_dset_other; auto.
    + rewrite G2. destruct (String.eqb_spec f file); [contradiction|auto].
    + destruct (S1 d' H f) as [Q|[_ Q]]; [|exfalso; apply Hdel in Q; tauto]. rewrite Q, G2. destruct (String.eqb_spec f file); [contradiction|auto].
Qed.

(** the exports of a diagnostic that are in the directory *)
Definition exports (name : string) (d : files) (k : Z) : Prop := 0 <= k /\ dget d (export_file name k) <> None.
Definition complete (name : string) (d : files) (k : Z) : Prop := 0 <= k /\ dget d (export_file name k) = Some true.
(** C36, the result: exactly one export of the diagnostic is left, the newest, and it is complete *)
Theorem C36_newest name idx d mid : 0 <= idx -> none_later name idx d -> savenpz true name idx d = (mid, Ok tt) ->
  complete name (last mid d) idx /\ forall k, exports name (last mid d) k -> k = idx.
Proof.
  intros Hi Hn E. destruct (savenpz_spec Hi Hn) as (m & r & E' & A & B & C & D). rewrite E in E'. inversion E'; subst. rewrite last_last. split; [split; auto|].
  intros k [Hk H]. destruct (Z.eq_dec k idx); auto. exfalso. destruct (Z.lt_ge_cases k idx).
  - apply H. apply B; [intros X; apply n; eapply export_inj; eauto|]. exists k. split; auto. apply export_like. auto.
  - apply H. rewrite (D r); [|apply in_or_app; right; left; auto|intros X; apply n; eapply export_inj; eauto|].
    + apply dget_None. intros X. pose proof (export_like name Hk) as L. apply like_numbered in L as [L _]. pose proof (Hn _ _ X L). lia.
    + intros (k' & L & Hk'). pose proof (export_like name Hk) as L'. apply like_numbered in L as [L _], L' as [L' _]. pose proof (numbered_det L L'). lia.
Qed.
(** C36, other files: only files named name_digits.npz with an older number are deleted, at no moment is any other file touched;
    so no file of a diagnostic of another name is, whatever its suffix, and neither are files of the same diagnostic with other suffixes *)
Theorem C36_untouched name idx d mid d' f : 0 <= idx -> none_later name idx d -> savenpz true name idx d = (mid, Ok tt) -> In d' mid ->
  f <> export_file name idx -> ~ older name idx f -> dget d' f = dget d f.
Proof. intros Hi Hn E H Hf Ho. destruct (savenpz_spec Hi Hn) as (m & r & E' & A & B & C & D). rewrite E in E'. inversion E'; subst. apply D; auto. Qed.
Theorem C36_other_diagnostics name other idx k d mid d' suffix : 0 <= idx -> none_later name idx d -> savenpz true name idx d = (mid, Ok tt) -> In d' mid ->
  0 <= k -> other <> name \/ suffix <> ".npz" -> path_suffix (other ++ "_" ++ py_str k ++ suffix)%string = suffix ->
  dget d' (other ++ "_" ++ py_str k ++ suffix)%string = dget d (other ++ "_" ++ py_str k ++ suffix)%string.
Proof.
  intros Hi Hn E H Hk Ho Hs. assert (K : forall j, ~ like_export name (other ++ "_" ++ py_str k ++ suffix)%string j).
  { intros j L. assert (suffix = ".npz") as -> by (apply like_numbered in L as [_ L]; congruence). destruct Ho as [Ho|Ho]; [|congruence]. apply Ho. symmetry. eapply like_other; [exact L|]. apply (export_like other Hk). }
  apply (@C36_untouched name idx d mid d' _ Hi Hn E H); [|intros (j & L & _); eapply K; eauto]. intros X. apply (K idx). rewrite X. apply export_like. auto.
Qed.
(** C36, crash points: as long as the number is new, at every moment a complete export is in the directory if there was one before *)
Theorem C36_crash name idx d mid d' k : 0 <= idx -> none_later name idx d -> savenpz true name idx d = (mid, Ok tt) -> In d' mid ->
  complete name d k -> k <> idx -> exists k', complete name d' k'.
Proof.
  intros Hi Hn E H [Hk C0] Hne. destruct (savenpz_spec Hi Hn) as (m & r & E' & A & B & C & D). rewrite E in E'. inversion E'; subst. destruct (C d' H) as [X|X]; [exists idx; split; auto|].
  exists k. split; auto. rewrite X; auto. intros Q. apply Hne. eapply export_inj; eauto.
Qed.
(** An export with the number of the only complete one overwrites it, so the claim about crash points fails for that *)
Theorem C36_crash_refuted : exists name idx d mid d', none_later name idx d /\ complete name d idx /\ savenpz true name idx d = (mid, Ok tt) /\ In d' mid /\ forall k, ~ complete name d' k.
Proof.
  exists "pow", 3, [("pow_3.npz", true)]. eexists _, [("pow_3.npz", false)]. split; [|split; [split; [lia|reflexivity]|split; [vm_compute; reflexivity|split; [simpl; auto|]]]].
  - intros f k [<-|[]] H. assert (L : numbered "pow" "pow_3.npz" 3) by (exists "3"; repeat split; discriminate). pose proof (numbered_det H L). lia.
  - intros k [Hk H]. cbn [dget] in H. destruct (String.eqb (export_file "pow" k) "pow_3.npz"); discriminate H.
Qed.
(** if a file with a later number exists, nothing is deleted, and a ValueError ends the export after the new file is complete *)
Theorem C36_later name idx d f k : 0 <= idx -> In f (dkeys d) -> numbered name f k -> idx < k ->
  exists mid, savenpz true name idx d = (mid, Err ValueError) /\ complete name (last mid d) idx /\ forall d' g, In d' mid -> g <> export_file name idx -> dget d' g = dget d g.
Proof.
  intros Hi Hf Hk Hl. unfold savenpz. fold (export_file name idx). rewrite (@earlier_error _ name idx f k); auto; [|rewrite !dkeys_dset_In; auto].
  eexists. split; [reflexivity|]. split; [split; auto; cbn [last]; rewrite dget_dset_same; auto|]. intros d' g [<-|[<-|[<-|[]]]] Hg; auto; rewrite !dget_dset_other by auto; auto.
Qed.
(** without keep_only_last_export nothing is ever deleted *)
Theorem C36_keep_all name idx d : exists mid, savenpz false name idx d = (mid, Ok tt) /\ dget (last mid d) (export_file name idx) = Some true /\
  forall d' g, In d' mid -> g <> export_file name idx -> dget d' g = dget d g.
Proof.
  unfold savenpz. fold (export_file name idx). eexists. split; [reflexivity|]. split; [cbn [last]; rewrite dget_dset_same; auto|]. intros d' g [<-|[<-|[<-|[]]]] Hg; auto; rewrite !dget_dset_other by auto; auto.
Qed.
(** A sequence of exports at increasing times into a folder without files of the diagnostic: every one of them succeeds, and at the
    end only the last one is there *)
Fixpoint export_all (name : string) (times : list Z) (d : files) : res files :=
  match times with
  | [] => Ok d
  | t :: times => match savenpz true name t d with (mid, Ok _) => export_all name times (last mid d) | (_, Err e) => Err e end
  end.
Inductive increasing : Z -> list Z -> Prop :=
| inc_nil a : increasing a []
| inc_cons a t l : a < t -> increasing t l -> increasing a (t :: l).
Theorem C36_sequence name times d : increasing (-1) times -> times <> [] -> (forall f k, In f (dkeys d) -> ~ numbered name f k) ->
  exists d', export_all name times d = Ok d' /\ complete name d' (last times 0) /\ (forall k, exports name d' k -> k = last times 0) /\
    forall f, (forall k, ~ like_export name f k) -> dget d' f = dget d f.
Proof.
  intros Hinc Hne Hd.
  assert (K : forall times a d, increasing a times -> -1 <= a -> none_later name a d -> exists d', export_all name times d = Ok d' /\ none_later name (last times a) d' /\
     (times <> [] -> complete name d' (last times 0) /\ forall k, exports name d' k -> k = last times 0) /\ forall f, (forall k, ~ like_export name f k) -> dget d' f = dget d f).
  { clear. induction times as [|t times IH]; intros a d Hinc Ha Hn; cbn [export_all]; [exists d; repeat split; auto; congruence|]. inversion Hinc; subst.
    assert (Hn' : none_later name t d) by (intros f k X Y; pose proof (Hn f k X Y); lia). destruct (@savenpz_spec name t d ltac:(lia) Hn') as (mid & r & E & A & B & C & D). rewrite E. rewrite last_last.
    assert (Hr : none_later name t r).
    { intros f k X Y. destruct (string_dec f (export_file name t)) as [->|Hf]; [pose proof (export_like name (k := t) ltac:(lia)) as L; apply like_numbered in L as [L _]; pose proof (numbered_det Y L); lia|].
      destruct (older_dec name t f) as [O|O]; [destruct O as (k' & L & Hk'); apply like_numbered in L as [L _]; pose proof (numbered_det Y L); lia|].
      apply (Hn' f); auto. assert (Q : dget r f <> None) by (intros Q; apply dget_None in Q; auto). rewrite (D r) in Q; auto; [|apply in_or_app; right; left; auto]. destruct (in_dec string_dec f (dkeys d)) as [|N]; auto. exfalso. apply Q. apply dget_None. auto. }
    destruct (IH t r) as (d' & E' & N' & L' & P'); auto; [lia|]. exists d'. split; auto. split; [|split].
    - destruct times; auto. change (last (t :: z :: times) a) with (last (z :: times) a). erewrite last_indep; [exact N'|discriminate].
    - intros _. destruct times as [|z times].
      + cbn [export_all] in E'. inversion E'; subst. cbn [last]. pose proof (@C36_newest name t d (mid ++ [d']) ltac:(lia) Hn' E) as [X1 X2]. rewrite last_last in X1, X2. auto.
      + change (last (t :: z :: times) 0) with (last (z :: times) 0). apply L'. discriminate.
    - intros f Hf. rewrite (P' f Hf). apply D; [apply in_or_app; right; left; auto| |].
      + intros ->. apply (Hf t). apply export_like. lia.
      + intros (k & L & _). apply (Hf k). auto. }
  destruct (K times (-1) d Hinc ltac:(lia)) as (d' & E & _ & L & P); [intros f k X Y; exfalso; apply (Hd f k); auto|]. destruct (L Hne). eauto 6.
Qed.
Example C36_example :
  let d := [("pow_4.npz", true); ("pow_4.json", true); ("pow_5_2.npz", true); ("po_3.npz", true); ("pow", true); ("pow_2.npz", true)] in
  none_later "pow" 10 d /\ complete "pow" d 4 /\ (exists mid, savenpz true "pow" 10 d = (mid, Ok tt) /\
    last mid d = [("pow_4.json", true); ("pow_5_2.npz", true); ("po_3.npz", true); ("pow", true); ("pow_10.npz", true)]).
Proof.
  split; [|split; [split; [lia|reflexivity]|]].
  - intros f k Hf (ds & A & N & V & E). simpl in Hf. destruct Hf as [<-|[<-|[<-|[<-|[<-|[<-|[]]]]]]]; vm_compute in E; try discriminate E; injection E as <-; vm_compute in A; try discriminate A; vm_compute in V; lia.
  - eexists. split; vm_compute; reflexivity.
Qed.
Example C36_sequence_example : exists d', export_all "pow" [4; 9; 20] [("po_3.npz", true)] = Ok d' /\ d' = [("po_3.npz", true); ("pow_20.npz", true)] /\ increasing (-1) [4; 9; 20] /\
  forall f k, In f (dkeys [("po_3.npz", true)]) -> ~ numbered "pow" f k.
Proof.
  eexists. split; [vm_compute; reflexivity|]. split; [reflexivity|]. split; [repeat constructor|]. intros f k [<-|[]] (ds & A & N & V & E). vm_compute in E. discriminate E.
Qed.
Print Assumptions C36_newest.
Print Assumptions C36_untouched.
Print Assumptions C36_other_diagnostics.
Print Assumptions C36_crash.
Print Assumptions C36_crash_refuted.
Print Assumptions C36_later.
Print Assumptions C36_keep_all.
Print Assumptions C36_sequence.

(* ------------------------------------------------------------------ concrete cases that meet the hypotheses *)
Definition some_files : files := [("pow_4.npz", true); ("pow_4.json", true); ("pow_5_2.npz", true); ("po_3.npz", true); ("pow", true); ("pow_2.npz", true)].
Lemma some_files_save : exists mid, 0 <= 10 /\ none_later "pow" 10 some_files /\ savenpz true "pow" 10 some_files = (mid, Ok tt) /\ In (last mid some_files) mid /\ (2 <= length mid)%nat.
Proof.
  destruct C36_example as (A & _ & mid & B & _). exists mid. split; [lia|]. split; [exact A|]. split; [exact B|].
  vm_compute in B. injection B as <-. split; [|cbn; lia]. vm_compute. auto 20.
Qed.
Example C36_newest_meets : exists mid, 0 <= 10 /\ none_later "pow" 10 some_files /\ savenpz true "pow" 10 some_files = (mid, Ok tt).
Proof. destruct some_files_save as (mid & A & B & C & _). exists mid. auto. Qed.
Example C36_untouched_meets : exists mid d', 0 <= 10 /\ none_later "pow" 10 some_files /\ savenpz true "pow" 10 some_files = (mid, Ok tt) /\ In d' mid /\
  "pow_5_2.npz" <> export_file "pow" 10 /\ ~ older "pow" 10 "pow_5_2.npz".
Proof.
  destruct some_files_save as (mid & A & B & C & D & _). exists mid, (last mid some_files). do 4 (split; [assumption|]). split; [vm_compute; discriminate|].
  intros (k & (ds & E1 & _ & _ & E2) & _). cbn in E2. destruct ds as [|c1 [|c2 [|c3 ds]]]; cbn in E2; try discriminate E2.
  injection E2 as <- <- <- _. vm_compute in E1. discriminate E1.
Qed.
(** a file of another diagnostic whose name begins in the same way *)
Example C36_other_diagnostics_meets : exists mid d', 0 <= 10 /\ none_later "pow" 10 some_files /\ savenpz true "pow" 10 some_files = (mid, Ok tt) /\ In d' mid /\
  0 <= 2 /\ ("pow_5" <> "pow" \/ ".npz" <> ".npz") /\ path_suffix ("pow_5" ++ "_" ++ py_str 2 ++ ".npz")%string = ".npz" /\
  dget some_files ("pow_5" ++ "_" ++ py_str 2 ++ ".npz")%string = Some true.
Proof.
  destruct some_files_save as (mid & A & B & C & D & _). exists mid, (last mid some_files). do 4 (split; [assumption|]). split; [lia|].
  split; [left; discriminate|]. split; vm_compute; reflexivity.
Qed.
Example C36_crash_meets : exists mid d', 0 <= 10 /\ none_later "pow" 10 some_files /\ savenpz true "pow" 10 some_files = (mid, Ok tt) /\ In d' mid /\
  complete "pow" some_files 4 /\ 4 <> 10.
Proof.
  destruct some_files_save as (mid & A & B & C & D & _). exists mid, (last mid some_files). do 4 (split; [assumption|]). split; [|lia].
  split; [lia|reflexivity].
Qed.
Example C36_later_meets : 0 <= 3 /\ In "pow_4.npz" (dkeys some_files) /\ numbered "pow" "pow_4.npz" 4 /\ 3 < 4.
Proof. split; [lia|]. split; [left; reflexivity|]. split; [|lia]. exists "4". do 2 (split; [vm_compute; (reflexivity || discriminate)|]). split; vm_compute; reflexivity. Qed.
Example C35_names_partial_meets : 0 <= 3 /\ get_multiple_unique_folder_names "f_" "t" ["f_t_0"; "f_t_1"] 3 = Ok ["f_t_2"; "f_t_3"; "f_t_4"].
Proof. split; [lia|]. apply C35_example. Qed.
Example C35_unused_partial_meets : exists names, 0 <= 3 /\ get_multiple_unique_folder_names "f_" "t" ["f_t_0"; "f_t_1"] 3 = Ok names /\
  (forall a b, (a < b)%nat -> In (folder "f_" "t" b) ["f_t_0"; "f_t_1"] -> In (folder "f_" "t" a) ["f_t_0"; "f_t_1"]).
Proof. destruct C35_example as [A B]. eexists. split; [lia|]. split; [exact A|exact B]. Qed.
