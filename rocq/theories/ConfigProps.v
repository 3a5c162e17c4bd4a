(** C78: which configurations are accepted. *)
Require Import Verif.PyBase Verif.PyLemmas Verif.ConfigModel Verif.ArrayProofs Verif.Demo.
Set Implicit Arguments.
Local Open Scope string_scope.
Local Open Scope list_scope.
Local Open Scope Z_scope.

(** C78.  A configuration is accepted exactly if the room has a length and a centre coordinate for each dimension and
    the reverberation is one of the three known kinds; it is kept as given.  Everything else fails an assertion. *)
Theorem C78_accepted i j : info_post_init i = Ok j <->
  j = i /\ zlen (room_size i) = spatial_dims i /\ zlen (room_center i) = spatial_dims i /\
  (reverb i = "none" \/ reverb i = "direct" \/ reverb i = "ism").
Proof.
  unfold info_post_init, passert. destruct (Z.eqb_spec (zlen (room_size i)) (spatial_dims i)); cbn [bind]; [|split; [discriminate|tauto]].
  destruct (Z.eqb_spec (zlen (room_center i)) (spatial_dims i)); cbn [bind]; [|split; [discriminate|tauto]].
  destruct (smem (reverb i) _) eqn:Q; cbn [bind].
  - apply smem_spec in Q. cbn [In] in Q. split; [intros H; injection H as <-; intuition|]. intros (-> & _). auto.
  - apply smem_false in Q. cbn [In] in Q. split; [discriminate|]. intros (_ & _ & _ & H). exfalso. apply Q. intuition.
Qed.
Theorem C78_refused i e : info_post_init i = Err e -> e = AssertionError /\
  (zlen (room_size i) <> spatial_dims i \/ zlen (room_center i) <> spatial_dims i \/ (reverb i <> "none" /\ reverb i <> "direct" /\ reverb i <> "ism")).
Proof.
  intros H. assert (K : ~ exists j, info_post_init i = Ok j) by (intros (j & Hj); rewrite H in Hj; discriminate).
  unfold info_post_init, passert in *. destruct (Z.eqb_spec (zlen (room_size i)) (spatial_dims i)); cbn [bind] in *; [|injection H as <-; auto].
  destruct (Z.eqb_spec (zlen (room_center i)) (spatial_dims i)); cbn [bind] in *; [|injection H as <-; auto].
  destruct (smem (reverb i) _) eqn:Q; cbn [bind] in *; [discriminate|]. injection H as <-. split; auto. right. right. apply smem_false in Q. cbn [In] in Q.
  repeat split; intros R; apply Q; rewrite R; auto.
Qed.
(** Nothing else is checked: in particular a simulation buffer, a chunk or an update interval of zero, which no
    simulation can use, are accepted. *)
Theorem C78_unchecked_refuted : exists i, info_post_init i = Ok i /\ sim_buffer i = 0 /\ sim_chunk_size i = 0 /\ array_update_freq i = 0 /\ tot_samples i = -1.
Proof.
  exists (mkInfo (-1) 0 0 false false 0 8000 343 3 "ism" [4; 3; 2] [0; 0; 0] 0 100 false 0 0 0 "none" 0 false). repeat split; vm_compute; reflexivity.
Qed.
Example C78_accepted_meets : info_post_init demo_info = Ok demo_info /\ reverb demo_info = "ism".
Proof. split; vm_compute; reflexivity. Qed.
Example C78_refused_meets : info_post_init (mkInfo 8 2 3 false false 1 8000 343 3 "random" [4; 3; 2] [0; 0; 0] 0 100 false 0 0 0 "none" 0 false) = Err AssertionError /\
  info_post_init (mkInfo 8 2 3 false false 1 8000 343 3 "ism" [4; 3] [0; 0; 0] 0 100 false 0 0 0 "none" 0 false) = Err AssertionError.
Proof. split; vm_compute; reflexivity. Qed.
Print Assumptions C78_accepted.
Print Assumptions C78_refused.
Print Assumptions C78_unchecked_refuted.
