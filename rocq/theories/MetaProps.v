(** C141: the metadata of arrays.  C142: resetting source arrays. *)
Require Import Verif.PyBase Verif.PyLemmas Verif.MetaModel.
Set Implicit Arguments.
Local Open Scope string_scope.
Local Open Scope list_scope.

(* ------------------------------------------------------------------ specification *)
Section Spec.
Variable F : Type.
(** the json value of a Python value; there is none for numpy arrays and integers, nor for anything that contains them *)
Inductive written : pyval F -> json F -> Prop :=
| WNone : written PNone JNull
| WBool b : written (PBool b) (JBool b)
| WInt z : written (PInt z) (JInt z)
| WFloat x : written (PFloat x) (JFloat x)
| WStr s : written (PStr s) (JStr s)
| WList l l' : Forall2 written l l' -> written (PList l) (JList l')
| WDict d d' : Forall2 (fun a b => fst a = fst b /\ written (snd a) (snd b)) d d' -> written (PDict d) (JObj d').
Definition jsonable (v : pyval F) : Prop := exists j, written v j.
(** the entry for a power: arrays are written as lists *)
Definition power_written (p : pyval F) (j : json F) : Prop := match p with PArr l => exists l', j = JList l' /\ Forall2 written l l' | v => written v j end.
(** what is said of a source: the number of channels and the arguments of its constructor *)
Definition describes_source (s : source F) (e : list (string * json F)) : Prop :=
  let says k P := exists j : json F, dget e k = Some j /\ P j in
  says "number of channels" (eq (JInt (channels_of s))) /\
  match s with
  | SWhite _ p => says "power" (power_written p)
  | SSine _ p f => says "power" (power_written p) /\ says "frequency" (written f)
  | SCounter _ n => says "start number" (written n)
  | SMulti _ p fs => says "power" (power_written p) /\ says "frequency" (power_written (PArr fs))
  | SBand _ p l => says "power" (power_written p) /\ says "frequency span" (written l)
  | SMls _ o p _ => says "order" (written o) /\ says "polynomial" (written p)
  | SGold _ p o => says "order" (eq (JInt o)) /\ says "sequence length" (eq (JInt (2 ^ o - 1)%Z)) /\
                   says "power" (fun j => exists rows, j = JList rows /\ Forall2 (fun x row => exists y, row = JList [y] /\ written x y) (match p with PArr l => l | v => [v] end) rows)
  | SOther _ => True
  end.
(** what is said of an array *)
Definition describes (a : array F) (e : list (string * json F)) : Prop :=
  dget e "type" = Some (JStr (m_type a)) /\ dget e "number" = Some (JInt (m_num a)) /\ dget e "number of groups" = Some (JInt (m_groups a)) /\ dget e "dynamic" = Some (JBool (m_dynamic a)) /\
  dget e "region shape" = option_map JStr (m_region a) /\
  match m_source a with Some s => exists i, dget e "source info" = Some (JObj i) /\ describes_source s i | None => dget e "source info" = None end.
(** the power of the sources whose power can be changed *)
Definition adjustable (s : source F) : option (pyval F) := match s with SWhite _ p | SBand _ p _ | SGold _ p _ => Some p | _ => None end.
(** the arguments of the constructor of a source that can be written to a file *)
Definition power_ok (p : pyval F) : Prop := match p with PArr l => Forall jsonable l | v => jsonable v end.
Definition writable (s : source F) : Prop :=
  match s with
  | SWhite _ p => power_ok p
  | SSine _ p f => power_ok p /\ jsonable f
  | SCounter _ n => jsonable n
  | SMulti _ _ _ => False
  | SBand _ p l => power_ok p /\ jsonable l
  | SMls _ o p _ => jsonable o /\ jsonable p
  | SGold _ p _ => power_ok p
  | SOther _ => True
  end.
(** an array as one of the constructors makes it, with a source whose arguments can be written *)
Inductive fresh : array F -> Prop :=
| FreshPlain type num groups dynamic : fresh (new_array type num groups dynamic)
| FreshRegion type num groups dynamic region : fresh (new_region_array type num groups dynamic region)
| FreshFree num groups dynamic s a : writable s -> new_free_array num groups dynamic s = Ok a -> fresh a.
End Spec.

(* ------------------------------------------------------------------ proofs *)
Section Proofs.
Context {F : Type}.
Notation dump_list := (fix all (l : list (pyval F)) : res (list (json F)) := match l with [] => Ok [] | v :: r => j <- json_dump v ;; js <- all r ;; Ok (j :: js) end).
Notation dump_dict := (fix all (d : list (string * pyval F)) : res (list (string * json F)) := match d with [] => Ok [] | (k, v) :: r => j <- json_dump v ;; js <- all r ;; Ok ((k, j) :: js) end).
Lemma dump_sound : forall (v : pyval F) j, json_dump v = Ok j -> written v j.
Proof.
  fix IH 1. intros v j H. destruct v as [|b|z|x|s|l|d|l|z]; cbn in H; try (injection H as <-; constructor); try discriminate.
  - destruct (dump_list l) as [l'|] eqn:E; [|discriminate]. cbn [bind] in H. injection H as <-. constructor. revert l' E. induction l as [|v r IHr]; intros l' E; [injection E as <-; constructor|].
    destruct (json_dump v) as [j|] eqn:Ev; [|discriminate]. cbn [bind] in E. destruct (dump_list r) as [js|] eqn:Er; [|discriminate]. cbn [bind] in E. injection E as <-. constructor; [apply IH; exact Ev|apply IHr; reflexivity].
  - destruct (dump_dict d) as [d'|] eqn:E; [|discriminate]. cbn [bind] in H. injection H as <-. constructor. revert d' E. induction d as [|[k v] r IHr]; intros d' E; [injection E as <-; constructor|].
    destruct (json_dump v) as [j|] eqn:Ev; [|discriminate]. cbn [bind] in E. destruct (dump_dict r) as [js|] eqn:Er; [|discriminate]. cbn [bind] in E. injection E as <-. constructor; [split; [reflexivity|apply IH; exact Ev]|apply IHr; reflexivity].
Qed.
Lemma dump_complete : forall (v : pyval F) j, written v j -> json_dump v = Ok j.
Proof.
  fix IH 3. intros v j H. destruct H as [|b|z|x|s|l l' H|d d' H]; try reflexivity.
  - cbn. assert (E : dump_list l = Ok l'). { induction H as [|v j r r' Hv Hr IHr]; [reflexivity|]. rewrite (IH _ _ Hv). cbn [bind]. rewrite IHr. reflexivity. } rewrite E. reflexivity.
  - cbn. assert (E : dump_dict d = Ok d'). { induction H as [|[k v] [k' j] r r' Hv Hr IHr]; [reflexivity|]. destruct Hv as [Hk Hv]. cbn [fst snd] in Hk, Hv. subst k'. rewrite (IH _ _ Hv). cbn [bind]. rewrite IHr. reflexivity. } rewrite E. reflexivity.
Qed.
Lemma dump_fails (v : pyval F) : (exists j, json_dump v = Ok j) \/ json_dump v = Err TypeError.
Proof.
  revert v. fix IH 1. intros v. destruct v as [|b|z|x|s|l|d|l|z]; cbn; eauto.
  - assert (E : (exists l', dump_list l = Ok l') \/ dump_list l = Err TypeError).
    { induction l as [|v r IHr]; [eauto|]. destruct (IH v) as [[j ->]| ->]; [|auto]. cbn [bind]. destruct IHr as [[l' ->]| ->]; cbn [bind]; eauto. }
    destruct E as [[l' ->]| ->]; cbn [bind]; eauto.
  - assert (E : (exists l', dump_dict d = Ok l') \/ dump_dict d = Err TypeError).
    { induction d as [|[k v] r IHr]; [eauto|]. destruct (IH v) as [[j ->]| ->]; [|auto]. cbn [bind]. destruct IHr as [[l' ->]| ->]; cbn [bind]; eauto. }
    destruct E as [[l' ->]| ->]; cbn [bind]; eauto.
Qed.
Lemma dict_get (d : list (string * pyval F)) d' k : Forall2 (fun a b => fst a = fst b /\ written (snd a) (snd b)) d d' ->
  match dget d k with Some v => exists j, dget d' k = Some j /\ written v j | None => dget d' k = None end.
Proof. induction 1 as [|[n v] [n' j] r r' [E W] H IH]; [reflexivity|]. cbn [fst snd] in E, W. subst n'. cbn [dget]. destruct (String.eqb k n); eauto. Qed.
Lemma jsonable_list l : Forall (jsonable (F := F)) l -> exists l', Forall2 (written (F := F)) l l'.
Proof. induction 1 as [|v r [j Hj] H [l' IH]]; [exists []; constructor|exists (j :: l'); constructor; auto]. Qed.
Lemma jsonable_dict (d : list (string * pyval F)) : Forall (fun kv => jsonable (snd kv)) d -> exists d', Forall2 (fun a b => fst a = fst b /\ written (snd a) (snd b)) d d'.
Proof. induction 1 as [|[k v] r [j Hj] H [d' IH]]; [exists []; constructor|exists ((k, j) :: d'); constructor; [split|]; auto]. Qed.
Lemma power_jsonable p : power_ok p -> jsonable (F := F) (power_entry p).
Proof. destruct p; cbn; auto. intros H. apply jsonable_list in H as [l' H]. exists (JList l'). constructor. exact H. Qed.
Lemma power_said p j : written (power_entry p) j -> power_written (F := F) p j.
Proof. destruct p; cbn; auto. intros H. inversion H; subst. eauto. Qed.
Lemma column_jsonable p : power_ok p -> jsonable (F := F) (PList (map (fun x => PList [x]) (column_of p))).
Proof.
  intros H. assert (G : Forall (jsonable (F := F)) (column_of p)) by (destruct p; cbn in *; auto). apply jsonable_list in G as [l' G]. exists (JList (map (fun y => JList [y]) l')). constructor.
  induction G; cbn [map]; constructor; auto. constructor. repeat constructor; auto.
Qed.
Lemma column_said p j : written (PList (map (fun x => PList [x]) (column_of p))) j ->
  exists rows, j = JList rows /\ Forall2 (fun x row => exists y, row = JList [y] /\ written x y) (match p with PArr l => l | v => [v] end : list (pyval F)) rows.
Proof.
  intros H. inversion H as [| | | | |l l' HL|]; subst. exists l'. split; [reflexivity|]. change (match p with PArr l => l | v => [v] end) with (column_of p).
  revert l' HL H. generalize (column_of p) as c. induction c as [|x c IH]; intros l' HL H; inversion HL as [|? row ? rest W R]; subst; constructor.
  - inversion W as [| | | | |? ? W'|]; subst. inversion W' as [|? y ? ? Wy Wn]; subst. inversion Wn; subst. eauto.
  - apply IH; [exact R|]. constructor. exact R.
Qed.
Lemma source_jsonable s : writable s -> Forall (fun kv => jsonable (F := F) (snd kv)) (source_metadata s).
Proof.
  intros H. unfold source_metadata. constructor; [eexists; constructor|]. destruct s; cbn in H; try contradiction; repeat (first [apply Forall_nil|apply Forall_cons]); cbn [snd]; try (eexists; constructor; fail); try tauto;
    try (apply power_jsonable; tauto); try (apply column_jsonable; tauto).
Qed.
Lemma source_said s i : writable s -> Forall2 (fun a b => fst a = fst b /\ written (snd a) (snd b)) (source_metadata s) i -> describes_source (F := F) s i.
Proof.
  intros WS H. pose proof (fun k => dict_get k H) as G. unfold describes_source. cbv zeta. split.
  - pose proof (G "number of channels") as K. cbn in K. destruct K as (j & E & W). exists j. split; [exact E|]. inversion W; reflexivity.
  - destruct s; cbn [writable] in WS; try contradiction; try exact I.
    + pose proof (G "power") as K. cbn in K. destruct K as (j & E & W). exists j. split; [exact E|]. apply power_said; exact W.
    + pose proof (G "power") as K. pose proof (G "frequency") as K2. cbn in K, K2. destruct K as (j & E & W). split; [exists j; split; [exact E|apply power_said; exact W]|exact K2].
    + exact (G "start number").
    + pose proof (G "power") as K. pose proof (G "frequency span") as K2. cbn in K, K2. destruct K as (j & E & W). split; [exists j; split; [exact E|apply power_said; exact W]|exact K2].
    + split; [exact (G "order")|exact (G "polynomial")].
    + pose proof (G "order") as K1. pose proof (G "sequence length") as K2. pose proof (G "power") as K3. cbn in K1, K2, K3. destruct K1 as (j1 & E1 & W1), K2 as (j2 & E2 & W2), K3 as (j3 & E3 & W3).
      split; [exists j1; split; [exact E1|inversion W1; reflexivity]|]. split; [exists j2; split; [exact E2|inversion W2; reflexivity]|]. exists j3. split; [exact E3|]. apply column_said. exact W3.
Qed.
Lemma free_array num groups dynamic s a : new_free_array num groups dynamic s = Ok a -> num = channels_of s /\ a = mkArray "FreeSourceArray" num groups dynamic None (Some s) (base_meta F "FreeSourceArray" num groups dynamic ++ [("source info", PDict (source_metadata s))]).
Proof. unfold new_free_array, set_source. cbn [new_array m_num]. destruct (Z.eqb_spec (channels_of s) num) as [E|E]; [|discriminate]. cbn [bind m_type m_num m_groups m_dynamic m_region m_source m_meta]. intros H. injection H as <-. split; [lia|reflexivity]. Qed.
Lemma fresh_said a : fresh a -> exists e, Forall2 (fun x y => fst x = fst y /\ written (snd x) (snd y)) (m_meta a) e /\ describes (F := F) a e.
Proof.
  intros H. assert (J : Forall (fun kv => jsonable (F := F) (snd kv)) (m_meta a)).
  { destruct H as [| |num groups dynamic s a W H]; cbn [new_array new_region_array m_meta base_meta app]; try (repeat (first [apply Forall_nil|apply Forall_cons]); cbn [snd]; eexists; constructor).
    apply free_array in H as [_ ->]. cbn [m_meta base_meta app]. repeat (first [apply Forall_nil|apply Forall_cons]); cbn [snd]; try (eexists; constructor; fail). destruct (jsonable_dict (source_jsonable _ W)) as [d' D]. exists (JObj d'). constructor. exact D. }
  destruct (jsonable_dict J) as [e D]. exists e. split; [exact D|]. pose proof (fun k => dict_get k D) as G. unfold describes.
  assert (K : forall k v, dget (m_meta a) k = Some v -> exists j, dget e k = Some j /\ written v j). { intros k v E. specialize (G k). rewrite E in G. exact G. }
  assert (N : forall k, dget (m_meta a) k = None -> dget e k = None). { intros k E. specialize (G k). rewrite E in G. exact G. }
  destruct H as [type num groups dynamic|type num groups dynamic region|num groups dynamic s a W H].
  - destruct (K "type" (PStr type) eq_refl) as (j1 & -> & W1), (K "number" (PInt num) eq_refl) as (j2 & -> & W2), (K "number of groups" (PInt groups) eq_refl) as (j3 & -> & W3), (K "dynamic" (PBool dynamic) eq_refl) as (j4 & -> & W4).
    inversion W1; inversion W2; inversion W3; inversion W4; subst. repeat (split; [reflexivity|]). split; [apply N; reflexivity|]. apply N. reflexivity.
  - destruct (K "type" (PStr type) eq_refl) as (j1 & -> & W1), (K "number" (PInt num) eq_refl) as (j2 & -> & W2), (K "number of groups" (PInt groups) eq_refl) as (j3 & -> & W3), (K "dynamic" (PBool dynamic) eq_refl) as (j4 & -> & W4), (K "region shape" (PStr region) eq_refl) as (j5 & -> & W5).
    inversion W1; inversion W2; inversion W3; inversion W4; inversion W5; subst. repeat (split; [reflexivity|]). apply N. reflexivity.
  - apply free_array in H as [_ ->]. cbn [m_meta m_type m_num m_groups m_dynamic m_region m_source] in *.
    destruct (K "type" (PStr "FreeSourceArray") eq_refl) as (j1 & -> & W1), (K "number" (PInt num) eq_refl) as (j2 & -> & W2), (K "number of groups" (PInt groups) eq_refl) as (j3 & -> & W3), (K "dynamic" (PBool dynamic) eq_refl) as (j4 & -> & W4), (K "source info" (PDict (source_metadata s)) eq_refl) as (j5 & -> & W5).
    inversion W1; inversion W2; inversion W3; inversion W4; inversion W5 as [| | | | | |d d' DD]; subst. repeat (split; [reflexivity|]). split; [apply N; reflexivity|]. exists d'. split; [reflexivity|]. apply source_said; auto.
Qed.

(** C141.  The file written for arrays as they are made, whose sources have arguments that can be written: one entry for each array, under its name and in their order, which describes the array. *)
Theorem C141_written_partial (arrays : list (string * array F)) : (forall n a, In (n, a) arrays -> fresh a) ->
  exists d, save_metadata_arrays true arrays = Ok (Some (JObj d)) /\ Forall2 (fun na entry => fst entry = fst na /\ exists e, snd entry = JObj e /\ describes (snd na) e) arrays d.
Proof.
  intros H. assert (G : exists d, Forall2 (fun a b => fst a = fst b /\ written (snd a) (snd b)) (map (fun na : string * array F => (fst na, PDict (m_meta (snd na)))) arrays) d /\
    Forall2 (fun na entry => fst entry = fst na /\ exists e, snd entry = JObj e /\ describes (snd na) e) arrays d).
  { induction arrays as [|[n a] r IH]; [exists []; split; constructor|]. destruct IH as (d & D1 & D2); [intros; eapply H; right; eauto|]. destruct (fresh_said (H n a (or_introl eq_refl))) as (e & E1 & E2).
    exists ((n, JObj e) :: d). split; constructor; auto; cbn [fst snd]; split; auto; [constructor; exact E1|eauto]. }
  destruct G as (d & D1 & D2). exists d. split; [|exact D2]. unfold save_metadata_arrays. rewrite (dump_complete (WDict D1)). reflexivity.
Qed.
(** C141.  Without a folder nothing is written, and nothing fails. *)
Theorem C141_no_folder (arrays : list (string * array F)) : save_metadata_arrays false arrays = Ok None.
Proof. reflexivity. Qed.
(** C141.  Any entry that json cannot write makes the whole call fail with a TypeError. *)
Theorem C141_unwritable (arrays : list (string * array F)) n a k v : In (n, a) arrays -> In (k, v) (m_meta a) -> ~ jsonable v -> save_metadata_arrays true arrays = Err TypeError.
Proof.
  intros I1 I2 N. unfold save_metadata_arrays. destruct (dump_fails (PDict (map (fun na : string * array F => (fst na, PDict (m_meta (snd na)))) arrays))) as [[j E]| ->]; [|reflexivity]. exfalso. apply dump_sound in E. inversion E as [| | | | | |d d' D]; subst.
  assert (P : forall (d : list (string * pyval F)) d' x, Forall2 (fun a b => fst a = fst b /\ written (snd a) (snd b)) d d' -> In x d -> jsonable (snd x)). { clear. intros d d0 x H. induction H as [|z y q q0 [_ W] H IH]; [intros []|]; intros [Q|Q]; [subst; exists (snd y); exact W|auto]. }
  destruct (P _ _ (n, PDict (m_meta a)) D) as [j J]. { apply in_map_iff. exists (n, a). auto. } cbn [snd] in J. inversion J as [| | | | | |dd dd' DD]; subst. exact (N (P _ _ (k, v) DD I2)).
Qed.
(** C141 is false of arrays with a MultiSineSource: no file is written for any collection with one. *)
Theorem C141_multisine_refuted (arrays : list (string * array F)) n a num groups dynamic channels power frequencies :
  In (n, a) arrays -> new_free_array num groups dynamic (SMulti channels power frequencies) = Ok a -> save_metadata_arrays true arrays = Err TypeError.
Proof.
  intros I H. apply free_array in H as [_ ->]. apply C141_unwritable with (1 := I) (k := "source info") (v := PDict (source_metadata (SMulti channels power frequencies))).
  - cbn [m_meta]. apply in_or_app. right. left. reflexivity.
  - intros [j J]. inversion J as [| | | | | |d d' D]; subst. pose proof (dict_get "frequency" D) as G. cbn in G. destruct G as (? & _ & W). inversion W.
Qed.
(** C141 is false of arrays that were changed after they were made: a new source, other groups or another power of the source leave no trace in the file. *)
Theorem C141_changed_refuted (n : string) (a : array F) r : (forall s b, set_source a s = Ok b -> save_metadata_arrays true ((n, b) :: r) = save_metadata_arrays true ((n, a) :: r)) /\
  (forall g, save_metadata_arrays true ((n, set_groups a g) :: r) = save_metadata_arrays true ((n, a) :: r)) /\ (forall p b, set_power a p = Ok b -> save_metadata_arrays true ((n, b) :: r) = save_metadata_arrays true ((n, a) :: r)).
Proof.
  assert (G : forall b, m_meta b = m_meta a -> save_metadata_arrays true ((n, b) :: r) = save_metadata_arrays true ((n, a) :: r)). { intros b E. unfold save_metadata_arrays. cbn [map fst snd]. rewrite E. reflexivity. }
  split; [|split].
  - intros s b H. apply G. unfold set_source in H. destruct (_ =? _)%Z; [|discriminate]. injection H as <-. reflexivity.
  - intros g. apply G. reflexivity.
  - intros p b H. apply G. unfold set_power in H. destruct (m_source a) as [[]|]; cbn [bind] in H; try discriminate; injection H as <-; reflexivity.
Qed.
(** ... and so what the file says is wrong: of the groups whenever there are now fewer or more of them *)
Theorem C141_groups_refuted (a : array F) g e : describes a e -> g <> m_groups a -> ~ describes (set_groups a g) e.
Proof. intros (_ & _ & H & _) N (_ & _ & H' & _). cbn [set_groups m_groups] in H'. rewrite H in H'. injection H' as H'. auto. Qed.
(** ... of the source whenever the new one has another number as power *)
Theorem C141_source_refuted (a : array F) c x y b e : m_source a = Some (SWhite c (PFloat x)) -> set_source a (SWhite c (PFloat y)) = Ok b -> x <> y -> describes a e -> ~ describes b e.
Proof.
  intros S H N D D'. unfold set_source in H. destruct (_ =? _)%Z; [|discriminate]. injection H as <-. unfold describes in D, D'. rewrite S in D. cbn [m_source] in D'.
  destruct D as (_ & _ & _ & _ & _ & i & E & _ & j & P & W), D' as (_ & _ & _ & _ & _ & i' & E' & _ & j' & P' & W'). rewrite E in E'. injection E' as <-. rewrite P in P'. injection P' as <-. cbn [power_written] in W, W'. inversion W; subst. inversion W'. auto.
Qed.
(** ... of the power whenever it was changed to another number *)
Theorem C141_power_refuted (a b : array F) p : set_power a p = Ok b ->
  exists s s' x, m_source a = Some s /\ adjustable s = Some x /\ m_source b = Some s' /\ adjustable s' = Some p /\ channels_of s' = channels_of s /\
    forall u v e, x = PFloat u -> p = PFloat v -> u <> v -> describes a e -> ~ describes b e.
Proof.
  intros H. unfold set_power in H. destruct (m_source a) as [s|] eqn:S; [|discriminate]. destruct s as [c q|c q f|c n|c q f|c q l|c o q t|c q o|c]; cbn [bind] in H; try discriminate; injection H as <-; cbn [m_source];
    eexists; eexists; exists q; (split; [reflexivity|]); (split; [reflexivity|]); (split; [reflexivity|]); (split; [reflexivity|]); (split; [reflexivity|]); intros u v e -> -> N D D'; unfold describes in D, D'; rewrite S in D; cbn [m_source] in D';
    destruct D as (_ & _ & _ & _ & _ & i & E & _ & D), D' as (_ & _ & _ & _ & _ & i' & E' & _ & D'); rewrite E in E'; injection E' as <-.
  - destruct D as (j & P & W), D' as (j' & P' & W'). rewrite P in P'. injection P' as <-. cbn [power_written] in W, W'. inversion W; subst. inversion W'. auto.
  - destruct D as ((j & P & W) & _), D' as ((j' & P' & W') & _). rewrite P in P'. injection P' as <-. cbn [power_written] in W, W'. inversion W; subst. inversion W'. auto.
  - destruct D as (_ & _ & j & P & rows & -> & R), D' as (_ & _ & j' & P' & rows' & -> & R'). rewrite P in P'. injection P' as <-. inversion R as [|? ? ? ? (y & Q & W)]; subst. inversion R' as [|? ? ? ? (y' & Q' & W')]; subst. injection Q' as <-. inversion W; subst. inversion W'. auto.
Qed.
(** C141.  A source with another number of channels than the array has elements is refused, when an array is made and later; arrays whose source has no adjustable power refuse a new one. *)
Theorem C141_refused (a : array F) s p : (channels_of s <> m_num a -> set_source a s = Err AssertionError) /\
  (forall num groups dynamic, channels_of s <> num -> new_free_array num groups dynamic s = Err AssertionError) /\
  ((forall t, m_source a = Some t -> adjustable t = None) -> set_power a p = Err AttributeError).
Proof.
  split; [|split].
  - intros N. unfold set_source. apply Z.eqb_neq in N. rewrite N. reflexivity.
  - intros num groups dynamic N. unfold new_free_array, set_source. cbn [new_array m_num]. apply Z.eqb_neq in N. rewrite N. reflexivity.
  - intros N. unfold set_power. destruct (m_source a) as [t|]; [|reflexivity]. specialize (N t eq_refl). destruct t; cbn in N; try discriminate; reflexivity.
Qed.
(** C142.  reset_state leaves the array with a source of the same state: a copy of it. *)
Theorem C142_kept (a : array F) : fst (reset_state a) = a.
Proof. unfold reset_state. destruct (m_source a); reflexivity. Qed.
(** C142 is false: no source can be reset. *)
Theorem C142_reset_refuted (a : array F) : snd (reset_state a) = Err AttributeError.
Proof. unfold reset_state. destruct (m_source a) as [[]|]; reflexivity. Qed.
End Proofs.

(* ------------------------------------------------------------------ examples *)
Definition white (p : Z) : source Z := SWhite 2 (PFloat p).
Definition multi : source Z := SMulti 1 (PInt 1) [PInt 100; PInt 200].
Definition noise (s : source Z) (num : Z) : array Z := match new_free_array num 1 false s with Ok a => a | Err _ => new_array "" 0 0 false end.
Example C141_written_meets : (forall n a, In (n, a) [("mic", new_array "MicArray" 3 1 true); ("zone", new_region_array "RegionArray" 9 2 false "Ball"); ("noise", noise (white 4) 2)] -> fresh a) /\
  save_metadata_arrays true [("noise", noise (white 4) 2)] = Ok (Some (JObj [("noise", JObj [("type", JStr "FreeSourceArray"); ("number", JInt 2); ("number of groups", JInt 1); ("dynamic", JBool false); ("source info", JObj [("number of channels", JInt 2); ("power", JFloat 4%Z)])])])).
Proof.
  split; [|reflexivity]. intros n a [H|[H|[H|[]]]]; injection H as <- <-; [constructor|constructor|]. apply FreshFree with (num := 2%Z) (groups := 1%Z) (dynamic := false) (s := white 4); [|reflexivity]. cbn. eexists. constructor.
Qed.
Example C141_unwritable_meets : In ("source info", PDict (source_metadata multi)) (m_meta (noise multi 1)) /\ new_free_array 1 1 false multi = Ok (noise multi 1) /\ save_metadata_arrays true [("noise", noise multi 1)] = Err TypeError.
Proof. split; [right; right; right; right; left; reflexivity|]. split; reflexivity. Qed.
Example C141_changed_meets : exists b e, set_source (noise (white 4) 2) (white 5) = Ok b /\ save_metadata_arrays true [("noise", b)] = Ok (Some (JObj [("noise", JObj e)])) /\ describes (noise (white 4) 2) e /\ ~ describes b e /\ m_groups (noise (white 4) 2) = 1%Z.
Proof.
  eexists. eexists. split; [reflexivity|]. split; [reflexivity|].
  assert (D : describes (noise (white 4) 2) [("type", JStr "FreeSourceArray"); ("number", JInt 2); ("number of groups", JInt 1); ("dynamic", JBool false); ("source info", JObj [("number of channels", JInt 2); ("power", JFloat 4%Z)])]).
  { repeat (split; [reflexivity|]). eexists. split; [reflexivity|]. split; [eexists; split; reflexivity|]. eexists. split; [reflexivity|]. constructor. }
  split; [exact D|]. split; [|reflexivity]. apply (@C141_source_refuted Z (noise (white 4) 2) 2%Z 4%Z 5%Z); [reflexivity|reflexivity|discriminate|exact D].
Qed.
Example C141_power_meets : exists b, set_power (noise (SGold 2 (PFloat 4%Z) 5) 2) (PFloat 5%Z) = Ok b /\ m_source (noise (SGold 2 (PFloat 4%Z) 5) 2) = Some (SGold 2 (PFloat 4%Z) 5).
Proof. eexists. split; reflexivity. Qed.
Example C141_refused_meets : set_source (noise (white 4) 2) multi = Err AssertionError /\ new_free_array 3 1 false (white 4) = Err AssertionError /\ set_power (noise multi 1) (PInt 2) = Err AttributeError.
Proof. repeat split; reflexivity. Qed.
Example C142_example : reset_state (noise (white 4) 2) = (noise (white 4) 2, Err AttributeError).
Proof. reflexivity. Qed.
Print Assumptions C141_written_partial.
Print Assumptions C141_no_folder.
Print Assumptions C141_unwritable.
Print Assumptions C141_multisine_refuted.
Print Assumptions C141_changed_refuted.
Print Assumptions C141_groups_refuted.
Print Assumptions C141_source_refuted.
Print Assumptions C141_power_refuted.
Print Assumptions C141_refused.
Print Assumptions C142_kept.
Print Assumptions C142_reset_refuted.
