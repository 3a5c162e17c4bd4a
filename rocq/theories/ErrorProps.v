(** C39 and C69: which error is raised for paths and points that cannot be created. *)
Require Import Reals.
Require Import Verif.PyBase Verif.PyLemmas Verif.ConfigModel Verif.ArrayModel Verif.ArraySpec Verif.ArrayProofs Verif.ArrayPaths Verif.Demo Verif.PointsModel.
Set Implicit Arguments.

Section Errors.
Context {E : AEnv}.
Notation arr := (arr Pos Src).
(** the types of paths that the library knows *)
Definition known_types : list string := ["none"; "direct"; "random"; "ism"]%string.
(** C39.  A direct path between arrays of different sizes raises an AssertionError, an image source path in another number of
    dimensions than three and a path of unknown type a ValueError.  With a directional microphone an image source path raises a
    NotImplementedError (in the code after the sources are placed in the room, which is not modelled and can raise an error
    before it).  Errors of the image source generator itself are passed on. *)
Theorem C39_generation_fails i g (s m : arr) t e : create_path i g s m t = Err e <->
  (t = "direct"%string /\ a_num s <> a_num m /\ e = AssertionError) \/
  (t = "ism"%string /\ spatial_dims i <> 3 /\ e = ValueError) \/
  (t = "ism"%string /\ spatial_dims i = 3 /\ (exists d, In d (a_dirs m) /\ d <> "omni"%string) /\ e = NotImplementedError) \/
  (t = "ism"%string /\ spatial_dims i = 3 /\ (forall d, In d (a_dirs m) -> d = "omni"%string) /\ ism3d (rir_params i) g (a_pos s) (a_pos m) = Err e) \/
  (~ In t known_types /\ e = ValueError).
Proof.
  assert (D : existsb (fun d => negb (String.eqb d "omni")) (a_dirs m) = true <-> exists d, In d (a_dirs m) /\ d <> "omni"%string).
  { rewrite existsb_exists. split; intros (d & I & H); exists d; split; auto; destruct (String.eqb_spec d "omni"); auto; discriminate. }
  assert (D' : existsb (fun d => negb (String.eqb d "omni")) (a_dirs m) = false <-> forall d, In d (a_dirs m) -> d = "omni"%string).
  { split.
    - intros H d I. destruct (String.eqb_spec d "omni") as [->|N]; auto. assert (K : existsb (fun d => negb (String.eqb d "omni")) (a_dirs m) = true) by (apply D; eauto). congruence.
    - intros H. apply Bool.not_true_is_false. intros Q. apply D in Q as (d & I & N). exfalso. auto. }
  unfold create_path, known_types.
  destruct (String.eqb_spec t "none") as [->|N1].
  { cbn [bind]. split; [discriminate|]. intros [(? & _)|[(? & _)|[(? & _)|[(? & _)|(H & _)]]]]; try discriminate. exfalso. apply H. left. reflexivity. }
  destruct (String.eqb_spec t "direct") as [->|N2].
  { destruct (Z.eqb_spec (a_num s) (a_num m)) as [Q|Q]; cbn [passert bind].
    - split; [discriminate|]. intros [(_ & ? & _)|[(? & _)|[(? & _)|[(? & _)|(H & _)]]]]; try discriminate; [congruence|]. exfalso. apply H. right. left. reflexivity.
    - split; [intros H; injection H as <-; auto|]. intros [(_ & _ & ->)|[(? & _)|[(? & _)|[(? & _)|(H & _)]]]]; try discriminate; [reflexivity|]. exfalso. apply H. right. left. reflexivity. }
  destruct (String.eqb_spec t "random") as [->|N3].
  { destruct (np_normal _ _ _ _). cbn [bind]. split; [discriminate|]. intros [(? & _)|[(? & _)|[(? & _)|[(? & _)|(H & _)]]]]; try discriminate. exfalso. apply H. right. right. left. reflexivity. }
  destruct (String.eqb_spec t "ism") as [->|N4].
  { assert (K : ~ ~ In "ism"%string ["none"; "direct"; "random"; "ism"]%string) by (intros H; apply H; right; right; right; left; reflexivity).
    destruct (Z.eqb_spec (spatial_dims i) 3) as [Q|Q].
    - destruct (existsb _ _).
      + cbn [bind]. pose proof (proj1 D eq_refl) as X. split; [intros H; injection H as <-; right; right; left; auto|]. intros [(? & _)|[(_ & ? & _)|[(_ & _ & _ & ->)|[(_ & _ & H & _)|(H & _)]]]]; try discriminate; try contradiction; auto.
        destruct X as (d & I & N). exfalso. auto.
      + pose proof (proj1 D' eq_refl) as X. destruct (ism3d _ _ _ _) as [gp|e'] eqn:G; cbn [bind].
        * split; [discriminate|]. intros [(? & _)|[(_ & ? & _)|[(_ & _ & (d & I & N) & _)|[(_ & _ & _ & H)|(H & _)]]]]; try discriminate; try contradiction. exfalso. auto.
        * split; [intros H; injection H as <-; right; right; right; left; auto|]. intros [(? & _)|[(_ & ? & _)|[(_ & _ & (d & I & N) & _)|[(_ & _ & _ & H)|(H & _)]]]]; try discriminate; try contradiction; [exfalso; auto|congruence].
    - cbn [bind]. split; [intros H; injection H as <-; right; left; auto|]. intros [(? & _)|[(_ & _ & ->)|[(_ & ? & _)|[(_ & ? & _)|(H & _)]]]]; try discriminate; try contradiction; auto. }
  cbn [bind]. split.
  - intros H. injection H as <-. right. right. right. right. split; auto. intros [<-|[<-|[<-|[<-|[]]]]]; contradiction.
  - intros [(-> & _)|[(-> & _)|[(-> & _)|[(-> & _)|(_ & ->)]]]]; try contradiction. reflexivity.
Qed.
End Errors.

(** C69: a filled cuboid without layers raises a ZeroDivisionError *)
Theorem C69_filled_cuboid_no_layers num dims : uniform_filled_cuboid num dims 0 = Err ZeroDivisionError.
Proof. reflexivity. Qed.

Example C39_generation_fails_meets : exists s m : arr (@Pos demo) (@Src demo),
  create_path demo_info (0 : @G demo) s m "direct" = Err AssertionError /\ create_path demo_info (0 : @G demo) s m "ism" = Err NotImplementedError /\ create_path demo_info (0 : @G demo) s m "image" = Err ValueError.
Proof.
  exists (mkArr "src" KFree 1 (0 : @Pos demo) None ["omni"%string] None [] []), (mkArr "mic" KMic 2 (0 : @Pos demo) None ["omni"; "cardioid"]%string None [] []). repeat split; vm_compute; reflexivity.
Qed.
Example C69_filled_cuboid_no_layers_meets : uniform_filled_cuboid 12 [1; 2; 3]%R 0 = Err ZeroDivisionError.
Proof. apply C69_filled_cuboid_no_layers. Qed.
Print Assumptions C39_generation_fails.
Print Assumptions C69_filled_cuboid_no_layers.
