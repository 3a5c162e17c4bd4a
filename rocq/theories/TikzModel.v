(** Model of delete_earlier_tikz_plot in diagnostics/plot.py.  output_plot calls it only with keep_only_latest_tikz=True, which no
    caller in the library passes. *)
Require Import Verif.PyBase Verif.PyStr Verif.FileModel.
Set Implicit Arguments.
Local Open Scope list_scope.

Section Tikz.
(** contents of a file *)
Variable A : Type.
(** an entry of the figure folder: a file, or a folder of files (folders in it are left out); entries in the order of iterdir,
    which reads the whole folder first *)
Inductive node := File (a : A) | Folder (l : dict A).
(** what may end the function: the AssertionErrors of lines 31 and fileutilities.py 109, the ValueError of fileutilities.py 90,
    the OSError of rmdir for a folder that is not empty, and the OSError of rename onto a folder; the latter two are no PermissionErrors *)
Inductive failure := Assertion | Value | NotEmpty | IsDirectory.
(** the operating system: may the file be moved or removed, may the folder be removed (otherwise PermissionError) *)
Variable may_touch : string -> string -> bool.
Variable may_rmdir : string -> bool.

Definition without {B} (d : dict B) (k : string) : dict B := filter (fun kv => negb (String.eqb (fst kv) k)) d.

(** plot.py 24-33: one file [pf] of the folder [f]; stem and suffix joined are the file's name *)
Definition clean_file (dir : dict node) (f pf : string) : dict node * option failure :=
  match dget dir f with
  | Some (Folder l) =>
    match dget l pf with
    | Some a =>
      if String.eqb (path_suffix pf) ".pdf" then
        if may_touch f pf then
          match dget dir (path_stem pf ++ path_suffix pf)%string with
          | Some (Folder _) => (dir, Some IsDirectory)
          | _ => (dset (dset dir f (Folder (without l pf))) (path_stem pf ++ path_suffix pf)%string (File a), None)
          end
        else (dir, None)
      else if String.eqb (path_suffix pf) ".tsv" || String.eqb (path_suffix pf) ".tex" then
        if may_touch f pf then (dset dir f (Folder (without l pf)), None) else (dir, None)
      else (dir, Some Assertion)
    | None => (dir, None)                 (* not reached: pf is an entry of f *)
    end
  | _ => (dir, None)                      (* not reached: f is a folder *)
  end.
(** plot.py 22-37: the files of the folder [f], then the folder *)
Fixpoint clean_folder (dir : dict node) (f : string) (todo : list string) : dict node * option failure :=
  match todo with
  | [] =>
    if may_rmdir f then
      match dget dir f with
      | Some (Folder []) => (without dir f, None)
      | _ => (dir, Some NotEmpty)
      end
    else (dir, None)
  | pf :: r => match clean_file dir f pf with (d, None) => clean_folder d f r | stop => stop end
  end.
(** plot.py 19-37: the earlier entries that are folders *)
Fixpoint clean_all (dir : dict node) (earlier : list string) : dict node * option failure :=
  match earlier with
  | [] => (dir, None)
  | f :: r =>
    match dget dir f with
    | Some (Folder l) => match clean_folder dir f (dkeys l) with (d, None) => clean_all d r | stop => stop end
    | _ => clean_all dir r
    end
  end.
(** plot.py 13-37 (delete_earlier_tikz_plot): the folder afterwards, and what was raised *)
Definition delete_earlier_tikz_plot (dir : dict node) (name : string) : dict node * option failure :=
  match find_index_in_name name with
  | Err _ => (dir, Some Assertion)
  | Ok None => (dir, None)
  | Ok (Some idx) =>
    match find_all_earlier_files (dkeys dir) name idx true true with
    | Err _ => (dir, Some Value)
    | Ok earlier => clean_all dir earlier
    end
  end.
End Tikz.
