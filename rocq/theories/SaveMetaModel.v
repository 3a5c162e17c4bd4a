(** Model of ArrayCollection.save_metadata (src/aspsim/array.py 63-95): the three files it writes. *)
Require Import Verif.PyBase Verif.MetaModel.
Set Implicit Arguments.
Local Open Scope string_scope.

Section SaveMeta.
(** floating point numbers *)
Variable F : Type.
(** a file of the folder: a complete json text, or one that json.dump (array.py 80, 87, 94) left unfinished.  Files are opened for writing before anything is written, and
    json.dump writes piece by piece, so a value that cannot be written leaves such a file; what it holds is left open *)
Inductive content := Whole (j : json F) | Broken.
(** array.py 79-80, 86-87, 93-94: open and json.dump; that opening may fail is left out *)
Definition dump_to (files : dict content) (name : string) (v : pyval F) : dict content * res unit :=
  match json_dump v with Ok j => (dset files name (Whole j), Ok tt) | Err e => (dset files name Broken, Err e) end.
(** array.py 92: ar.pos.tolist(), for positions with one row per element *)
Definition tolist (pos : list (list F)) : pyval F := PList (map (fun row => PList (map (@PFloat F) row)) pos).
(** a dictionary of dictionaries as a Python value (array.py 76-78, 87) *)
Definition nested (d : dict (dict (pyval F))) : pyval F := PDict (map (fun ke : string * dict (pyval F) => (fst ke, PDict (snd ke))) d).
(** one statement after another; an exception ends the function, the files stay as they are (array.py 71-73) *)
Definition then_ (r : dict content * res unit) (k : dict content -> dict content * res unit) : dict content * res unit :=
  match r with (files, Ok _) => k files | (files, Err e) => (files, Err e) end.
(** array.py 63-73 with 75-80 (_save_metadata_arrays), 82-87 (_save_metadata_paths) and 89-94 (_save_readable_pos); [meta] are the metadata of the arrays by name,
    [info] is path_info, [pos] the positions by name *)
Definition save_metadata (folder : bool) (files : dict content) (meta info : dict (dict (pyval F))) (pos : dict (list (list F))) : dict content * res unit :=
  if folder then
    then_ (dump_to files "metadata_arrays.json" (nested meta)) (fun files =>
    then_ (dump_to files "metadata_paths.json" (nested info)) (fun files =>
    dump_to files "array_pos.json" (PDict (map (fun kp : string * list (list F) => (fst kp, tolist (snd kp))) pos))))
  else (files, Ok tt).
End SaveMeta.
Arguments Broken {F}.
