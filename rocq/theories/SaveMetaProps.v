(** C144: the files that save_metadata writes. *)
Require Import Verif.PyBase Verif.PyLemmas Verif.MetaModel Verif.MetaProps Verif.SaveMetaModel Verif.Demo.
Set Implicit Arguments.
Local Open Scope string_scope.

(* ------------------------------------------------------------------ specification *)
Section Spec.
Context {F : Type}.
(** every entry of every dictionary can be written *)
Definition all_writable (d : dict (dict (pyval F))) : Prop := forall k e n v, In (k, e) d -> In (n, v) e -> jsonable v.
(** a file with one object for each entry, under the same keys in the same order, whose members are the json values of the entry's values *)
Definition holds (d : dict (dict (pyval F))) (f : option (content F)) : Prop := exists o, f = Some (Whole (JObj o)) /\
  Forall2 (fun ke kj => fst kj = fst ke /\ exists e, snd kj = JObj e /\ Forall2 (fun a b => fst a = fst b /\ written (snd a) (snd b)) (snd ke) e) d o.
(** the three names *)
Definition its_files : list string := ["metadata_arrays.json"; "metadata_paths.json"; "array_pos.json"].
End Spec.

(* ------------------------------------------------------------------ proofs *)
Section Proofs.
Context {F : Type}.
Notation files := (dict (content F)).
Lemma nested_ok (d : dict (dict (pyval F))) : all_writable d -> exists j, json_dump (nested d) = Ok j /\ holds d (Some (Whole j)).
Proof.
  intros J. assert (X : exists o, Forall2 (fun a b => fst a = fst b /\ written (snd a) (snd b)) (map (fun ke : string * dict (pyval F) => (fst ke, PDict (snd ke))) d) o /\
    Forall2 (fun ke kj => fst kj = fst ke /\ exists e, snd kj = JObj e /\ Forall2 (fun a b => fst a = fst b /\ written (snd a) (snd b)) (snd ke) e) d o).
  { induction d as [|[k e] r IH]; [exists []; split; constructor|]. destruct IH as (o & O1 & O2); [intros k' e' n v I1 I2; eapply J; [right; exact I1|exact I2]|].
    destruct (@jsonable_dict F e) as [e' W]. { apply Forall_forall. intros [n v] I. eapply J; [left; reflexivity|exact I]. }
    exists ((k, JObj e') :: o). split; constructor; auto; cbn [fst snd]; split; auto; [constructor; exact W|eauto]. }
  destruct X as (o & O1 & O2). exists (JObj o). split; [apply dump_complete; constructor; exact O1|]. exists o. auto.
Qed.
Lemma nested_bad (d : dict (dict (pyval F))) k e n v : In (k, e) d -> In (n, v) e -> ~ jsonable v -> json_dump (nested d) = Err TypeError.
Proof.
  intros I1 I2 N. destruct (dump_fails (nested d)) as [[j H]|H]; [|exact H]. exfalso. apply dump_sound in H. inversion H as [| | | | | |l o W]; subst.
  assert (P : forall (d : list (string * pyval F)) d' x, Forall2 (fun a b => fst a = fst b /\ written (snd a) (snd b)) d d' -> In x d -> jsonable (snd x)). { clear. intros d d0 x H. induction H as [|z y q q0 [_ W] H IH]; [intros []|]; intros [Q|Q]; [subst; exists (snd y); exact W|auto]. }
  destruct (P _ _ (k, PDict e) W) as [j J]. { apply in_map_iff. exists (k, e). auto. } cbn [snd] in J. inversion J as [| | | | | |dd dd' DD]; subst. exact (N (P _ _ (n, v) DD I2)).
Qed.
Lemma tolist_written (p : list (list F)) : written (tolist p) (JList (map (fun row => JList (map (@JFloat F) row)) p)).
Proof. constructor. induction p as [|row p IH]; cbn; constructor; auto. constructor. induction row; cbn; constructor; auto. constructor. Qed.
Lemma pos_ok (pos : dict (list (list F))) : json_dump (PDict (map (fun kp : string * list (list F) => (fst kp, tolist (snd kp))) pos)) = Ok (JObj (map (fun kp => (fst kp, JList (map (fun row => JList (map (@JFloat F) row)) (snd kp)))) pos)).
Proof. apply dump_complete. constructor. induction pos as [|[k p] r IH]; cbn; constructor; auto. cbn. split; auto. apply tolist_written. Qed.

(** C144.  Without a folder nothing is written. *)
Theorem C144_no_folder (fs : files) meta info pos : save_metadata false fs meta info pos = (fs, Ok tt).
Proof. reflexivity. Qed.
(** C144.  When all metadata and figures can be written, the call succeeds, the first two files hold them, the third the coordinates of every element of every array,
    and no other file is touched. *)
Theorem C144_written (fs : files) meta info pos : all_writable meta -> all_writable info -> exists fs', save_metadata true fs meta info pos = (fs', Ok tt) /\
  holds meta (dget fs' "metadata_arrays.json") /\ holds info (dget fs' "metadata_paths.json") /\
  dget fs' "array_pos.json" = Some (Whole (JObj (map (fun kp => (fst kp, JList (map (fun row => JList (map (@JFloat F) row)) (snd kp)))) pos))) /\
  forall name, ~ In name its_files -> dget fs' name = dget fs name.
Proof.
  intros A B. destruct (nested_ok A) as (j1 & E1 & H1), (nested_ok B) as (j2 & E2 & H2). unfold save_metadata, dump_to, then_. rewrite E1, E2, pos_ok. eexists. split; [reflexivity|]. rewrite !dget_dset. cbn [String.eqb Ascii.eqb Bool.eqb]. split; [exact H1|]. split; [exact H2|]. split; [reflexivity|].
  intros name N. rewrite !dget_dset. repeat match goal with |- context [String.eqb name ?x] => destruct (String.eqb_spec name x) as [->|] end; try reflexivity; exfalso; apply N; cbn; auto.
Qed.
(** C144.  Metadata of an array that cannot be written end the call with a TypeError: the first file is left unfinished, the other two are neither written nor replaced. *)
Theorem C144_bad_array (fs : files) meta info pos k e n v : In (k, e) meta -> In (n, v) e -> ~ jsonable v -> exists fs', save_metadata true fs meta info pos = (fs', Err TypeError) /\
  dget fs' "metadata_arrays.json" = Some Broken /\ forall name, name <> "metadata_arrays.json" -> dget fs' name = dget fs name.
Proof.
  intros I1 I2 N. unfold save_metadata, dump_to at 1, then_ at 1. rewrite (@nested_bad _ _ _ _ _ I1 I2 N). eexists. split; [reflexivity|]. split; [apply dget_dset_same|]. intros name X. apply dget_dset_other. exact X.
Qed.
(** C144.  Figures of a path that cannot be written: the first file is complete, the second unfinished, the third as before. *)
Theorem C144_bad_path (fs : files) meta info pos k e n v : all_writable meta -> In (k, e) info -> In (n, v) e -> ~ jsonable v -> exists fs', save_metadata true fs meta info pos = (fs', Err TypeError) /\
  holds meta (dget fs' "metadata_arrays.json") /\ dget fs' "metadata_paths.json" = Some Broken /\ forall name, name <> "metadata_arrays.json" -> name <> "metadata_paths.json" -> dget fs' name = dget fs name.
Proof.
  intros A I1 I2 N. destruct (nested_ok A) as (j1 & E1 & H1). unfold save_metadata, dump_to, then_. rewrite E1, (@nested_bad _ _ _ _ _ I1 I2 N). eexists. split; [reflexivity|]. rewrite !dget_dset. cbn [String.eqb Ascii.eqb Bool.eqb]. split; [exact H1|]. split; [reflexivity|].
  intros name X Y. rewrite !dget_dset_other by auto. reflexivity.
Qed.
End Proofs.

(* ------------------------------------------------------------------ examples *)
Section Examples.
Definition meta : dict (dict (pyval Z)) := [("mic", [("type", PStr "MicArray"); ("number", PInt 2)]); ("spk", [("number", PInt 1)])].
Definition bad : dict (dict (pyval Z)) := [("noise", [("source info", PDict [("frequency", PArr [PInt 100])])])].
Definition paths : dict (dict (pyval Z)) := [("spk->mic", [("type", PStr "none")])].
Definition before : dict (content Z) := [("array_pos.json", Whole JNull); ("config.yaml", Whole JNull)].
Definition places : dict (list (list Z)) := [("mic", [[0; 1; 2]; [3; 4; 5]]%Z); ("spk", [[7; 7; 7]]%Z)].
Example C144_written_example : save_metadata true before meta paths places =
  ([("array_pos.json", Whole (JObj [("mic", JList [JList [JFloat 0; JFloat 1; JFloat 2]; JList [JFloat 3; JFloat 4; JFloat 5]]); ("spk", JList [JList [JFloat 7; JFloat 7; JFloat 7]])]%Z)); ("config.yaml", Whole JNull);
    ("metadata_arrays.json", Whole (JObj [("mic", JObj [("type", JStr "MicArray"); ("number", JInt 2)]); ("spk", JObj [("number", JInt 1)])])); ("metadata_paths.json", Whole (JObj [("spk->mic", JObj [("type", JStr "none")])]))], Ok tt).
Proof. vm_compute. reflexivity. Qed.
Example C144_written_meets : all_writable meta /\ all_writable paths.
Proof. split; intros k e n v I1 I2; cbn in I1; repeat destruct I1 as [I1|I1]; try contradiction; injection I1 as <- <-; cbn in I2; repeat destruct I2 as [I2|I2]; try contradiction; injection I2 as <- <-; eexists; constructor. Qed.
Example C144_bad_array_meets : save_metadata true before bad paths places = ((before ++ [("metadata_arrays.json", Broken)])%list, Err TypeError) /\ ~ jsonable (PDict [("frequency", PArr [PInt (F := Z) 100])]).
Proof. split; [vm_compute; reflexivity|]. intros [j H]. inversion H as [| | | | | |d d' D]; subst. inversion D as [|? ? ? ? [_ W] _]; subst. inversion W. Qed.
Example C144_bad_path_meets : get (Ok (save_metadata true before meta bad places)) (fun r => (dget (fst r) "metadata_paths.json", dget (fst r) "array_pos.json", snd r)) = Some (Some Broken, Some (Whole JNull), Err TypeError).
Proof. vm_compute. reflexivity. Qed.
End Examples.

Print Assumptions C144_no_folder.
Print Assumptions C144_written.
Print Assumptions C144_bad_array.
Print Assumptions C144_bad_path.
