(** Model of fileutilities.py and of savenpz in diagnostics/plot.py.  A directory is the list of the names of its entries, in
    the order in which iterdir yields them; names contain no slash. *)
Require Import Verif.PyBase Verif.PyStr.
Set Implicit Arguments.
Local Open Scope string_scope.
Local Open Scope list_scope.
Local Open Scope Z_scope.

(** fileutilities.py 33-36: while the folder exists, try the next number *)
Fixpoint folder_loop (fuel : nat) (dir : list string) (name : string) (name_len idx : Z) : res string :=
  match fuel with
  | O => Err OutOfFuel
  | S k => if smem name dir then folder_loop k dir (sprefix name name_len ++ "_" ++ py_str idx)%string name_len (idx + 1) else Ok name
  end.
(** fileutilities.py 26-38 (get_unique_folder_name); [time] is what get_time_string returned; the folder's name only, its parent is fixed *)
Definition get_unique_folder_name (prefix time : string) (dir : list string) : res string :=
  let name := (prefix ++ time ++ "_0")%string in
  if smem name dir then folder_loop (S (S (length dir))) dir name (slen name - 2) 1 else Ok name.
(** fileutilities.py 41-54 (get_multiple_unique_folder_names); s[:-n] with 1 <= n *)
Definition get_multiple_unique_folder_names (prefix time : string) (dir : list string) (num_names : Z) : res (list string) :=
  sub <- get_unique_folder_name prefix time dir ;;
  start_idx <- py_int (last_part "_" sub) ;;
  let start_idx_len := slen (last_part "_" sub) in
  let base_name := sprefix sub (slen sub - start_idx_len) in
  Ok (map (fun i => base_name ++ py_str (i + start_idx))%string (zrange 0 num_names)).

(** fileutilities.py 57-73 (get_highest_numbered_file); entries whose middle part is no number only cause a warning.  int also
    accepts signs, spaces and underscores, which are left out here. *)
Definition endswith (s p : string) : bool := (slen p <=? slen s) && String.eqb (sdrop s (slen s - slen p)) p.
(** s[a:b] for 0 <= a, 0 <= b *)
Definition smid (s : string) (a b : Z) : string := sprefix (sdrop s a) (b - a).
Definition get_highest_numbered_file (dir : list string) (prefix suffix : string) : option string :=
  let highest := fold_left (fun highest name =>
    if startswith name prefix && endswith name suffix then
      match py_int (smid name (slen prefix) (slen name - slen suffix)) with
      | Ok k => if highest <? k then k else highest
      | Err _ => highest
      end
    else highest) dir (-1) in
  if highest =? -1 then None else Some (prefix ++ py_str highest ++ suffix)%string.

(** fileutilities.py 76-97 (find_all_earlier_files); isdigit and int on ASCII digits *)
Definition find_all_earlier_files (dir : list string) (name : string) (current_idx : Z)
    (name_includes_idx error_if_future_files_exist : bool) : res (list string) :=
  let name := if name_includes_idx then sprefix name (slen name - slen (py_str current_idx)) else (name ++ "_")%string in
  foldM (fun earlier f =>
    if startswith (path_stem f) name && isdigit (sdrop (path_stem f) (slen name)) then
      f_idx <- py_int (sdrop (path_stem f) (slen name)) ;;
      if current_idx <? f_idx then
        if error_if_future_files_exist then Err ValueError else Ok earlier
      else if f_idx =? current_idx then Ok earlier
      else Ok (earlier ++ [f])
    else Ok earlier) [] dir.

(** the digits at the end of a name *)
Fixpoint trailing_digits (s : string) : string :=
  match s with EmptyString => EmptyString | String c r => if all_digits s then s else trailing_digits r end.
(** fileutilities.py 99-109 (find_index_in_name); None if the name does not end with a digit *)
Definition find_index_in_name (name : string) : res (option Z) :=
  let digits := trailing_digits name in
  if String.eqb digits "" then Ok None
  else idx <- py_int digits ;; _ <- passert (endswith name (py_str idx)) ;; Ok (Some idx).

(** Files with their state: true for a complete export, false for a file that is being written *)
Definition files := dict bool.
Definition dremove (d : files) (k : string) : files := filter (fun kv => negb (String.eqb (fst kv) k)) d.
(** diagnostics/plot.py 203-218 (savenpz), file operations only: the list of all directories between file operations, the
    last one being the result.  np.savez_compressed (line 212) appends .npz to the name, opens the file and completes it; a
    ValueError of find_all_earlier_files ends the function.  [outputs] are not modelled. *)
Definition savenpz (keep_only_last_export : bool) (name : string) (time_idx : Z) (d : files) : list files * res unit :=
  let file := (name ++ "_" ++ py_str time_idx ++ ".npz")%string in
  let d1 := dset d file false in
  let d2 := dset d1 file true in
  if keep_only_last_export then
    match find_all_earlier_files (dkeys d2) name time_idx false true with
    | Err e => ([d; d1; d2], Err e)
    | Ok earlier =>
      let deleted := filter (fun f => String.eqb (path_suffix f) ".npz") earlier in
      ([d; d1] ++ fst (fold_left (fun acc f => let d := dremove (snd acc) f in (fst acc ++ [d], d)) deleted ([d2], d2)), Ok tt)
    end
  else ([d; d1; d2], Ok tt).
