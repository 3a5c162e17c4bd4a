(** C79 to C81: numbered files. *)
Require Import Verif.PyBase Verif.PyLemmas Verif.PyStr Verif.PyStrLemmas Verif.FileModel Verif.FileProps.
Set Implicit Arguments.
Local Open Scope string_scope.
Local Open Scope list_scope.
Local Open Scope Z_scope.

(* ------------------------------------------------------------------ C79 *)
(** [f] is the prefix, then digits that stand for k, then the suffix *)
Definition entry (prefix suffix f : string) (k : Z) : Prop :=
  exists ds, all_digits ds = true /\ ds <> "" /\ digits_val 0 ds = k /\ f = (prefix ++ ds ++ suffix)%string.

Lemma sdrop_split s n : 0 <= n <= slen s -> s = (sprefix s n ++ sdrop s n)%string /\ slen (sprefix s n) = n.
Proof.
  unfold sprefix, sdrop, slen. intros H. destruct (Z_of_nat_complete n) as (m & ->); [lia|]. rewrite Nat2Z.id. assert (Hm : (m <= String.length s)%nat) by lia. clear H. revert s Hm.
  induction m as [|m IH]; intros s Hm; [split; [|destruct s; auto]; rewrite Nat.sub_0_r, substring_all; destruct s; auto|].
  destruct s as [|c s]; [cbn in Hm; lia|]. cbn [String.length] in *. destruct (IH s) as [A B]; [lia|]. cbn [substring String.length Nat.sub]. split; [|cbn [String.length]; lia].
  cbn [append]. rewrite <- A. auto.
Qed.
Lemma endswith_iff s p : endswith s p = true <-> exists r, s = (r ++ p)%string.
Proof.
  unfold endswith. split.
  - intros H. apply andb_prop in H as [H1 H2]. apply String.eqb_eq in H2. destruct (@sdrop_split s (slen s - slen p)) as [A _]; [pose proof (slen_nonneg p); lia|].
    rewrite H2 in A. eauto.
  - intros (r & ->). rewrite slen_app. pose proof (slen_nonneg r). replace (slen p <=? slen r + slen p) with true by lia. cbn [andb]. rewrite sdrop_app by lia. apply String.eqb_refl.
Qed.
Lemma smid_app a b c : smid (a ++ b ++ c)%string (slen a) (slen (a ++ b ++ c) - slen c) = b.
Proof. unfold smid. rewrite sdrop_app by auto. rewrite sprefix_app; auto. rewrite !slen_app. lia. Qed.
Lemma sprefix_neg s n : n <= 0 -> sprefix s n = "".
Proof. intros H. unfold sprefix. replace (Z.to_nat n) with O by lia. destruct s; auto. Qed.
(** the middle part of a name *)
Lemma entry_step prefix suffix f h : 
  (if startswith f prefix && endswith f suffix then
      match py_int (smid f (slen prefix) (slen f - slen suffix)) with
      | Ok k => if h <? k then k else h
      | Err _ => h
      end
    else h) = h /\ (forall k, entry prefix suffix f k -> k <= h) \/
  exists k, entry prefix suffix f k /\ h < k /\ (if startswith f prefix && endswith f suffix then
      match py_int (smid f (slen prefix) (slen f - slen suffix)) with
      | Ok k => if h <? k then k else h
      | Err _ => h
      end
    else h) = k.
Proof.
  assert (C : (exists k, entry prefix suffix f k) \/ ~ (exists k, entry prefix suffix f k) /\
    (startswith f prefix && endswith f suffix = true -> exists e, py_int (smid f (slen prefix) (slen f - slen suffix)) = Err e)).
  { destruct (startswith f prefix) eqn:Q1; [|right; split; [|discriminate]; intros (k & ds & _ & _ & _ & ->); rewrite (proj2 (startswith_iff _ _)) in Q1 by (eexists; eauto); discriminate].
    destruct (endswith f suffix) eqn:Q2; [|right; split; [|discriminate]; intros (k & ds & _ & _ & _ & ->); rewrite (proj2 (endswith_iff _ _)) in Q2 by (rewrite sapp_assoc; eexists; eauto); discriminate].
    apply startswith_iff in Q1 as (r & Q1). apply endswith_iff in Q2 as (r2 & Q2).
    destruct (Z.leb_spec (slen prefix + slen suffix) (slen f)) as [L|L].
    - assert (exists m, f = (prefix ++ m ++ suffix)%string) as (m & Hm).
      { exists (sprefix r (slen r - slen suffix)). rewrite Q1 in L, Q2 |- *. f_equal. rewrite slen_app in L. destruct (@sdrop_split r (slen r - slen suffix)) as [A B]; [pose proof (slen_nonneg suffix); lia|].
        rewrite A at 1. f_equal. rewrite A, sapp_assoc in Q2.
        assert (slen (prefix ++ sprefix r (slen r - slen suffix))%string = slen r2).
        { apply (f_equal slen) in Q2. rewrite !slen_app in *. rewrite B in *. assert (slen (sdrop r (slen r - slen suffix)) = slen suffix); [|lia]. apply (f_equal slen) in A. rewrite slen_app in A. lia. }
        assert (K : forall a b c d : string, slen a = slen c -> (a ++ b = c ++ d)%string -> b = d).
        { clear. induction a as [|x a IH]; intros b c d H E; destruct c as [|y c]; auto; unfold slen in H; cbn [String.length] in H; try lia. cbn [append] in E. injection E as _ E. apply (IH b c d); auto. unfold slen. lia. }
        eapply K; eauto. }
      clear Q1 Q2 L. subst f. rewrite smid_app. destruct (isdigit m) eqn:Qd.
      + left. pose proof Qd as Qd'. apply isdigit_iff in Qd' as [A N]. exists (digits_val 0 m), m. auto.
      + right. split; [|intros _; exists ValueError; unfold py_int; rewrite Qd; auto]. intros (k & ds & A & N & V & E). apply sapp_inv_head in E.
        assert (m = ds). { clear - E. revert ds E. induction m as [|x m IH]; intros ds E; destruct ds as [|y ds]; auto; cbn [append] in E.
          - apply (f_equal slen) in E. unfold slen in E. cbn [String.length] in E. rewrite sapp_length in E. lia.
          - apply (f_equal slen) in E. unfold slen in E. cbn [String.length] in E. rewrite sapp_length in E. lia.
          - injection E as -> E. f_equal. auto. }
        subst. rewrite (proj2 (isdigit_iff ds)) in Qd by auto. discriminate.
    - right. split; [|intros _; exists ValueError; unfold smid; rewrite sprefix_neg by lia; auto]. intros (k & ds & _ & _ & _ & E). rewrite E, !slen_app in L. pose proof (slen_nonneg ds). lia. }
  destruct C as [(k & Hk)|[Hn C]].
  - pose proof Hk as (ds & A & N & V & E). rewrite (proj2 (startswith_iff _ _)) by (eexists; eauto). rewrite (proj2 (endswith_iff f suffix)) by (rewrite E, sapp_assoc; eexists; eauto). cbn [andb].
    assert (M : smid f (slen prefix) (slen f - slen suffix) = ds) by (rewrite E; apply smid_app). rewrite M. unfold py_int. rewrite (proj2 (isdigit_iff ds)) by auto. rewrite V.
    destruct (Z.ltb_spec h k); [right; eauto|]. left. split; auto. intros k' (ds' & _ & _ & V' & E').
    assert (ds = ds'). { rewrite E' in M. rewrite smid_app in M. auto. } subst. lia.
  - left. split; [|intros k Hk; exfalso; eauto]. destruct (startswith f prefix && endswith f suffix)%bool; auto. destruct C as (e & ->); auto.
Qed.
Lemma entry_nonneg prefix suffix f k : entry prefix suffix f k -> 0 <= k.
Proof. intros (ds & A & _ & <- & _). apply digits_nonneg. auto. Qed.

(** C79.  The result is the prefix, the highest number of any entry, and the suffix; None if there is no such entry. *)
Theorem C79_highest dir prefix suffix :
  match get_highest_numbered_file dir prefix suffix with
  | None => forall f k, In f dir -> ~ entry prefix suffix f k
  | Some r => exists f k, In f dir /\ entry prefix suffix f k /\ r = (prefix ++ py_str k ++ suffix)%string /\
      forall f' k', In f' dir -> entry prefix suffix f' k' -> k' <= k
  end.
Proof.
  unfold get_highest_numbered_file. cbv zeta. match goal with |- context [fold_left ?g dir (-1)] => set (step := g) end.
  assert (K : forall dir, (fold_left step dir (-1) = -1 \/ exists f, In f dir /\ entry prefix suffix f (fold_left step dir (-1))) /\
    forall f k, In f dir -> entry prefix suffix f k -> k <= fold_left step dir (-1)).
  { clear dir. induction dir as [|f dir IH] using rev_ind; [split; [left; auto|intros f k []]|]. rewrite fold_left_app. cbn [fold_left]. set (h := fold_left step dir (-1)) in *. destruct IH as [I1 I2].
    destruct (entry_step prefix suffix f h) as [[H1 H2]|(k & H1 & H2 & H3)].
    - change (step h f) with (step h f). unfold step at 1 2 3. rewrite H1. split.
      + destruct I1 as [I1|(g & G1 & G2)]; auto. right. exists g. split; auto. apply in_or_app. auto.
      + intros g k Hg Hk. apply in_app_or in Hg as [Hg|[<-|[]]]; eauto.
    - unfold step at 1 2 3. rewrite H3. split.
      + right. exists f. split; auto. apply in_or_app. right. left. auto.
      + intros g k' Hg Hk. apply in_app_or in Hg as [Hg|[<-|[]]]; [pose proof (I2 _ _ Hg Hk); lia|].
        destruct H1 as (ds & _ & _ & V & E), Hk as (ds' & _ & _ & V' & E'). rewrite E in E'. assert (M : ds = ds').
        { pose proof (smid_app prefix ds suffix) as X. rewrite E', smid_app in X. auto. } subst. lia. }
  destruct (K dir) as [K1 K2]. set (h := fold_left step dir (-1)) in *. destruct (Z.eqb_spec h (-1)) as [e|e].
  - intros f k Hf Hk. pose proof (K2 _ _ Hf Hk). pose proof (entry_nonneg Hk). lia.
  - destruct K1 as [K1|(f & F1 & F2)]; [contradiction|]. exists f, h. auto.
Qed.
(** if the numbers are written as Python writes them, the result is an entry of the folder *)
Theorem C79_exists_partial dir prefix suffix r : (forall f k, In f dir -> entry prefix suffix f k -> f = (prefix ++ py_str k ++ suffix)%string) ->
  get_highest_numbered_file dir prefix suffix = Some r -> In r dir.
Proof. intros H K. pose proof (C79_highest dir prefix suffix) as L. rewrite K in L. destruct L as (f & k & F & G & -> & _). rewrite <- (H _ _ F G). auto. Qed.
(** with leading zeros it is not *)
Theorem C79_exists_refuted : exists dir prefix suffix r, get_highest_numbered_file dir prefix suffix = Some r /\ ~ In r dir.
Proof. exists ["sum_007.json"; "sum_002.json"], "sum_", ".json", "sum_7.json". split; [vm_compute; reflexivity|]. cbn [In]. intros [H|[H|[]]]; discriminate. Qed.
Example C79_highest_meets : get_highest_numbered_file ["sum_9.json"; "sum_x.json"; "sum_10.json"; "sum_11.npz"; "sum_2.json"; "sum_.json"] "sum_" ".json" = Some "sum_10.json" /\
  get_highest_numbered_file ["sum_9.txt"; "su"] "sum_" ".json" = None.
Proof. split; vm_compute; reflexivity. Qed.
Example C79_exists_partial_meets : let dir := ["sum_9.json"; "sum_10.json"] in get_highest_numbered_file dir "sum_" ".json" = Some "sum_10.json" /\
  (forall f k, In f dir -> entry "sum_" ".json" f k -> f = ("sum_" ++ py_str k ++ ".json")%string).
Proof.
  split; [vm_compute; reflexivity|]. intros f k Hf (ds & _ & _ & V & E).
  assert (M : smid f (slen "sum_") (slen f - slen ".json") = ds) by (rewrite E; apply smid_app). subst k ds. destruct Hf as [<-|[<-|[]]]; vm_compute; reflexivity.
Qed.
Print Assumptions C79_highest.
Print Assumptions C79_exists_partial.
Print Assumptions C79_exists_refuted.

(* ------------------------------------------------------------------ C80 *)
(** the last character is no digit *)
Definition no_digit_end (s : string) : Prop := forall a c, s = (a ++ String c "")%string -> is_digit c = false.
Lemma trailing_app base ds : no_digit_end base -> all_digits ds = true -> trailing_digits (base ++ ds)%string = ds.
Proof.
  intros HB HD. induction base as [|c base IH].
  - cbn [append]. destruct ds; auto. cbn [trailing_digits]. rewrite HD. auto.
  - cbn [append trailing_digits]. destruct (all_digits (String c (base ++ ds))) eqn:Q.
    + exfalso. change (String c (base ++ ds)) with (String c base ++ ds)%string in Q. rewrite all_digits_app in Q. apply andb_prop in Q as [Q _].
      assert (exists a x, String c base = (a ++ String x "")%string) as (a & x & E).
      { clear. revert c. induction base as [|y base IH]; intros c; [exists "", c; auto|]. destruct (IH y) as (a & x & E). exists (String c a), x. rewrite E. auto. }
      rewrite E, all_digits_app in Q. apply andb_prop in Q as [_ Q]. cbn [all_digits] in Q. rewrite (HB _ _ E) in Q. discriminate.
    + apply IH. intros a x E. apply (HB (String c a) x). rewrite E. auto.
Qed.
(** every name is such a base followed by digits *)
Theorem C80_split name : exists base ds, name = (base ++ ds)%string /\ all_digits ds = true /\ no_digit_end base.
Proof.
  induction name as [|c name (base & ds & E & A & N)].
  - exists "", "". split; auto. split; auto. intros a c E. destruct a; discriminate.
  - destruct base as [|x base].
    + destruct (is_digit c) eqn:Q.
      * exists "", (String c ds). split; [rewrite E; auto|]. split; [cbn [all_digits]; rewrite Q, A; auto|]. auto.
      * exists (String c ""), ds. split; [rewrite E; auto|]. split; auto. intros a y E'. destruct a as [|? a]; [injection E' as <-; auto|]. cbn [append] in E'. injection E' as _ E'. destruct a; discriminate E'.
    + exists (String c (String x base)), ds. split; [rewrite E; auto|]. split; auto. intros a y E'. destruct a as [|? a]; cbn [append] in E'; [discriminate|]. injection E' as _ E'. eapply N; eauto.
Qed.
Lemma str_digits_acc k : forall n acc, str_digits k n acc = (str_digits k n "" ++ acc)%string.
Proof.
  induction k as [|k IH]; intros n acc; cbn [str_digits]; auto. cbv zeta. destruct (n <? 10); auto. rewrite IH, (IH _ (String _ "")), <- sapp_assoc. auto.
Qed.
Lemma str_digits_fuel k : forall j n, 0 <= n < 2 ^ Z.of_nat k -> n < 2 ^ Z.of_nat j -> (1 <= k)%nat -> (1 <= j)%nat -> str_digits k n "" = str_digits j n "".
Proof.
  induction k as [|k IH]; intros j n Hn Hj H1 H2; [lia|]. destruct j as [|j]; [lia|]. cbn [str_digits]. cbv zeta. destruct (Z.ltb_spec n 10); auto.
  rewrite (str_digits_acc k), (str_digits_acc j). f_equal.
  assert (HK : forall i, n < 2 ^ Z.of_nat (S i) -> n / 10 < 2 ^ Z.of_nat i /\ (1 <= i)%nat).
  { intros i Hi. rewrite Nat2Z.inj_succ, Z.pow_succ_r in Hi by lia. split; [apply Z.div_lt_upper_bound; lia|]. destruct i; [cbn in Hi; lia|lia]. }
  destruct (HK k), (HK j); try lia. apply IH; auto. split; [apply Z.div_pos; lia|auto].
Qed.
Lemma py_str_snoc v d : 0 <= v -> 0 <= d <= 9 -> py_str (v * 10 + d) = ((if (v =? 0)%Z then "" else py_str v) ++ String (digit d) "")%string.
Proof.
  intros Hv Hd. unfold py_str. replace (v * 10 + d <? 0) with false by lia. replace (v <? 0) with false by lia. cbn [str_digits]. cbv zeta.
  replace ((v * 10 + d) mod 10) with d by (rewrite Z.add_comm, Z.mod_add, Z.mod_small; lia). destruct (Z.eqb_spec v 0) as [->|Hn]; [replace (0 * 10 + d <? 10) with true by lia; auto|].
  replace (v * 10 + d <? 10) with false by lia. rewrite str_digits_acc. f_equal. replace ((v * 10 + d) / 10) with v by (rewrite Z.add_comm, Z.div_add, Z.div_small; lia).
  pose proof (Z.log2_spec v) as L1. pose proof (Z.log2_spec (v * 10 + d)) as L2. pose proof (Z.log2_nonneg v). pose proof (Z.log2_nonneg (v * 10 + d)).
  assert (LL : Z.log2 (v * 2) <= Z.log2 (v * 10 + d)) by (apply Z.log2_le_mono; lia). rewrite Z.mul_comm, Z.log2_double in LL by lia.
  change (str_digits (Z.to_nat (Z.log2 (v * 10 + d))) v "" = str_digits (S (Z.to_nat (Z.log2 v))) v "").
  apply str_digits_fuel; try lia.
  - split; auto. rewrite Z2Nat.id by lia. destruct L1 as [_ L1]; [lia|]. eapply Z.lt_le_trans; [apply L1|]. apply Z.pow_le_mono_r; lia.
  - rewrite Nat2Z.inj_succ, Z2Nat.id by lia. apply L1. lia.
Qed.
Lemma digit_back c : is_digit c = true -> digit (digit_val c) = c /\ 0 <= digit_val c <= 9.
Proof.
  intros H. unfold is_digit in H. split; [|lia]. unfold digit. unfold digit_val in *. replace (48 + Z.to_nat (Z.of_nat (nat_of_ascii c) - 48))%nat with (nat_of_ascii c) by lia. apply ascii_nat_embedding.
Qed.
(** digits with the value k end with the decimal representation of k *)
Lemma digits_end_str ds : all_digits ds = true -> ds <> "" -> exists z, ds = (z ++ py_str (digits_val 0 ds))%string.
Proof.
  assert (SN : forall s, s = "" \/ exists a c, s = (a ++ String c "")%string).
  { induction s as [|c s [->|(a & d & ->)]]; auto; right; [exists "", c; auto|exists (String c a), d; auto]. }
  assert (K : forall n ds, String.length ds = n -> all_digits ds = true -> ds <> "" -> exists z, ds = (z ++ py_str (digits_val 0 ds))%string); [|intros; eapply K; eauto].
  clear ds. induction n as [|n IH]; intros ds Hn HA HN; [destruct ds; [congruence|discriminate]|]. destruct (SN ds) as [->|(a & c & ->)]; [congruence|].
  rewrite all_digits_app in HA. apply andb_prop in HA as [A C]. cbn [all_digits] in C. rewrite andb_true_r in C. rewrite digits_val_app. cbn [digits_val]. destruct (digit_back _ C) as [D1 D2].
  rewrite py_str_snoc by (auto; apply digits_nonneg; auto). rewrite D1. destruct (Z.eqb_spec (digits_val 0 a) 0); [exists a; auto|].
  destruct (IH a) as (z & Ez); auto.
  - rewrite sapp_length in Hn. cbn [String.length] in Hn. lia.
  - intros ->. cbn in n0. congruence.
  - exists z. rewrite sapp_assoc, <- Ez. auto.
Qed.

(** C80.  The index of a name is the value of all digits at its end; None if the last character is no digit.  The
    assertion in the code never fails. *)
Theorem C80_index base ds : no_digit_end base -> all_digits ds = true ->
  find_index_in_name (base ++ ds) = Ok (if String.eqb ds "" then None else Some (digits_val 0 ds)).
Proof.
  intros HB HD. unfold find_index_in_name. rewrite (@trailing_app base ds HB HD). cbv zeta. destruct (String.eqb_spec ds "") as [|N]; auto. unfold py_int. rewrite (proj2 (isdigit_iff ds)) by auto. cbn [bind].
  destruct (digits_end_str HD N) as (z & Ez). rewrite (proj2 (endswith_iff _ _)); [auto|]. exists (base ++ z)%string. rewrite <- sapp_assoc, <- Ez. auto.
Qed.
Example C80_index_meets : no_digit_end "fig2_" /\ all_digits "0120" = true /\ find_index_in_name ("fig2_" ++ "0120") = Ok (Some 120) /\ find_index_in_name "fig2_" = Ok None /\ find_index_in_name "17" = Ok (Some 17).
Proof.
  split; [|repeat split; vm_compute; reflexivity]. intros a c E. do 5 (destruct a as [|? a]; [discriminate E || (injection E as <-; reflexivity)|cbn [append] in E; injection E as _ E]). destruct a; discriminate.
Qed.
Example C80_split_meets : "fig2_7" = ("fig2_" ++ "7")%string /\ all_digits "7" = true.
Proof. split; reflexivity. Qed.
Print Assumptions C80_index.
Print Assumptions C80_split.

(* ------------------------------------------------------------------ C81 *)
(** the file name without its last suffix is [stem] and then digits that stand for k *)
Definition file_no (stem f : string) (k : Z) : Prop :=
  exists ds, all_digits ds = true /\ ds <> "" /\ digits_val 0 ds = k /\ path_stem f = (stem ++ ds)%string.
(** the prefix before the number: with [name_includes_idx] the name without its number, otherwise the name and _ *)
Definition stem_of (name : string) (idx : Z) (includes : bool) (stem : string) : Prop :=
  if includes then name = (stem ++ py_str idx)%string else stem = (name ++ "_")%string.
Lemma file_no_cases stem f : (exists k, file_no stem f k /\ startswith (path_stem f) stem = true /\ isdigit (sdrop (path_stem f) (slen stem)) = true /\ py_int (sdrop (path_stem f) (slen stem)) = Ok k) \/
  (forall k, ~ file_no stem f k) /\ (startswith (path_stem f) stem && isdigit (sdrop (path_stem f) (slen stem)))%bool = false.
Proof.
  destruct (startswith (path_stem f) stem) eqn:Q1; cbn [andb].
  2:{ right. split; auto. intros k (ds & _ & _ & _ & E). rewrite (proj2 (startswith_iff _ _)) in Q1 by (eexists; eauto). discriminate. }
  apply startswith_iff in Q1 as (r & Q1). rewrite Q1, sdrop_app by auto. destruct (isdigit r) eqn:Qd.
  - left. pose proof Qd as Qd'. apply isdigit_iff in Qd' as [A N]. exists (digits_val 0 r). split; [exists r; auto|]. repeat split; auto. unfold py_int. rewrite Qd. auto.
  - right. split; auto. intros k (ds & A & N & _ & E). rewrite Q1 in E. apply sapp_inv_head in E. subst. rewrite (proj2 (isdigit_iff ds)) in Qd by auto. discriminate.
Qed.
Lemma file_no_det stem f k k' : file_no stem f k -> file_no stem f k' -> k = k'.
Proof. intros (ds & _ & _ & <- & E) (ds' & _ & _ & <- & E'). rewrite E in E'. apply sapp_inv_head in E'. congruence. Qed.

(** C81.  The files with a lower number are returned, in the order of the folder.  A file with a higher number is an
    error if errors are asked for and is left out otherwise. *)
Theorem C81_earlier dir name idx includes strict stem : stem_of name idx includes stem ->
  (forall f k, strict = true -> In f dir -> file_no stem f k -> k <= idx) ->
  exists pick, find_all_earlier_files dir name idx includes strict = Ok (filter pick dir) /\
    forall f, pick f = true <-> exists k, file_no stem f k /\ k < idx.
Proof.
  intros HS HI. exists (fun f => (startswith (path_stem f) stem && isdigit (sdrop (path_stem f) (slen stem)) && (match py_int (sdrop (path_stem f) (slen stem)) with Ok k => k <? idx | Err _ => false end))%bool).
  split.
  - unfold find_all_earlier_files. cbv zeta. assert ((if includes then sprefix name (slen name - slen (py_str idx)) else (name ++ "_")%string) = stem) as ->.
    { unfold stem_of in HS. destruct includes; [rewrite HS, sprefix_app; auto; rewrite slen_app; lia|auto]. }
    induction dir as [|f dir IH] using rev_ind; auto. rewrite foldM_app, IH by (intros g k St Hg; apply HI; auto; apply in_or_app; auto). cbn [bind foldM]. rewrite filter_app. cbn [filter].
    destruct (file_no_cases stem f) as [(k & Hk & C1 & C2 & C3)|[_ ->]]; [|cbn [andb bind]; rewrite app_nil_r; auto]. rewrite C1, C2, C3. cbn [andb bind].
    destruct (Z.ltb_spec idx k).
    + destruct strict; [exfalso; assert (k <= idx) by (apply (HI f); auto; apply in_or_app; right; left; auto); lia|]. cbn [bind]. replace (k <? idx) with false by lia. rewrite app_nil_r. auto.
    + destruct (Z.eqb_spec k idx); cbn [bind]; [replace (k <? idx) with false by lia; rewrite app_nil_r; auto|]. replace (k <? idx) with true by lia. auto.
  - intros f. destruct (file_no_cases stem f) as [(k & Hk & C1 & C2 & C3)|[Hn ->]].
    + rewrite C1, C2, C3. cbn [andb]. split; [intros L; exists k; split; auto; lia|]. intros (k' & K1 & K2). pose proof (file_no_det Hk K1). lia.
    + cbn [andb]. split; [discriminate|]. intros (k & K & _). exfalso. eapply Hn; eauto.
Qed.
Theorem C81_later dir name idx includes stem f k : stem_of name idx includes stem -> In f dir -> file_no stem f k -> idx < k ->
  find_all_earlier_files dir name idx includes true = Err ValueError.
Proof.
  intros HS Hf Hk Hl. unfold find_all_earlier_files. cbv zeta. assert ((if includes then sprefix name (slen name - slen (py_str idx)) else (name ++ "_")%string) = stem) as ->.
  { unfold stem_of in HS. destruct includes; [rewrite HS, sprefix_app; auto; rewrite slen_app; lia|auto]. }
  revert Hf. match goal with |- _ -> foldM ?g _ _ = _ => set (step := g) end. generalize (@nil string) as acc. induction dir as [|g dir IH]; intros acc []; cbn [foldM]; unfold step at 1.
  - subst g. destruct (file_no_cases stem f) as [(k' & Hk' & C1 & C2 & C3)|[Hn _]]; [|exfalso; eapply Hn; eauto]. rewrite C1, C2, C3. cbn [andb bind]. pose proof (file_no_det Hk Hk').
    replace (idx <? k') with true by lia. auto.
  - destruct (file_no_cases stem g) as [(k' & Hk' & C1 & C2 & C3)|[_ ->]]; [|cbn [bind]; apply IH; auto]. rewrite C1, C2, C3. cbn [andb bind].
    destruct (idx <? k'); auto. destruct (k' =? idx); cbn [bind]; apply IH; auto.
Qed.
Example C81_earlier_meets : stem_of "fig_10" 10 true "fig_" /\ stem_of "fig" 10 false "fig_" /\
  find_all_earlier_files ["fig_9.pdf"; "fig_12"; "fig_10.npz"; "fig_2"; "fig_x"] "fig_10" 10 true false = Ok ["fig_9.pdf"; "fig_2"] /\
  find_all_earlier_files ["fig_9.pdf"; "fig_10.npz"; "fig_2"; "fig_x"] "fig" 10 false true = Ok ["fig_9.pdf"; "fig_2"].
Proof. repeat split; vm_compute; reflexivity. Qed.
Example C81_later_meets : stem_of "fig_10" 10 true "fig_" /\ file_no "fig_" "fig_12.pdf" 12 /\ find_all_earlier_files ["fig_9.pdf"; "fig_12.pdf"] "fig_10" 10 true true = Err ValueError.
Proof. split; [reflexivity|]. split; [exists "12"; repeat split; auto; discriminate|vm_compute; reflexivity]. Qed.
Print Assumptions C81_earlier.
Print Assumptions C81_later.
