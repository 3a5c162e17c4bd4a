(** Model of the metadata of paths: the dictionary path_info (src/aspsim/array.py 49), how setup_ir fills it (array.py 234-261) and how it is written to
    metadata_paths.json (array.py 82-87). *)
Require Import Verif.PyBase Verif.ConfigModel Verif.ArrayModel Verif.MetaModel.
Set Implicit Arguments.
Local Open Scope string_scope.

Section PathInfo.
Context {E : AEnv}.
(** floating point numbers *)
Variable F : Type.
(** the second result of ir_room_image_source_3d (roomimpulseresponse.py 328-352): the figures of the impulse responses between two arrays; like the responses
    they depend on the parameters of the room, the random state and the positions *)
Variable ism_info : rirpar -> G -> Pos -> Pos -> list (string * pyval F).
Notation arr := (arr Pos Src).
Notation coll := (coll E).
Notation pinfo := (dict (dict (pyval F))).

(** array.py 249, 256, 261: the key f"{src.name}->{mic.name}" *)
Definition path_key (s m : arr) : string := a_name s ++ "->" ++ a_name m.
(** roomimpulseresponse.py 124, 149-150: the dictionary that create_path returns besides the path *)
Definition create_info (i : info) (g : G) (s m : arr) (reverb : string) : dict (pyval F) :=
  if String.eqb reverb "ism" then [("ism_info", PDict (ism_info (rir_params i) g (a_pos s) (a_pos m)))] else [].
(** array.py 248-261: the body of the loop over all pairs, with path_info; the message of line 257 is left out *)
Definition setup_one_info (i : info) (cd : coll * pinfo) (sm : arr * arr) : res (coll * pinfo) :=
  let '(c, d) := cd in let s := fst sm in let m := snd sm in
  let d := dset d (path_key s m) [] in
  rv <- (if ((a_num s =? 0) || (a_num m =? 0))%Z then Ok "none" else dget2E (c_ptypes c) (a_name s) (a_name m)) ;;
  d <- dset2 d (path_key s m) "type" (PStr rv) ;;
  if negb (String.eqb rv "modified") then
    gp <- create_path i (c_rng c) s m rv ;;
    ps <- dset2 (c_paths c) (a_name s) (a_name m) (snd gp) ;;
    d <- foldM (fun d kv => dset2 d (path_key s m) (fst kv) (snd kv)) d (create_info i (c_rng c) s m rv) ;;
    Ok (set_rng (set_paths c ps) (fst gp), d)
  else Ok (c, d).
(** array.py 234-261: setup_ir, with path_info *)
Definition setup_ir_info (c : coll) (d : pinfo) (i : info) : res (coll * pinfo) :=
  let c := set_info c i in
  _ <- calc_rir_parameters c ;;
  cs <- mic_src_combos c ;;
  foldM (setup_one_info i) (c, d) cs.
(** array.py 82-87: _save_metadata_paths, what metadata_paths.json holds *)
Definition save_metadata_paths (d : pinfo) : res (json F) := json_dump (PDict (map (fun ke : string * dict (pyval F) => (fst ke, PDict (snd ke))) d)).
End PathInfo.
