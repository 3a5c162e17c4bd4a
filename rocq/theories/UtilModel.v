(** Model of utilities.py, of the block helpers of processor.py and of set_unique_processor_names of simulator.py. *)
Require Import Verif.PyBase Verif.PyStr.
Set Implicit Arguments.
Local Open Scope string_scope.
Local Open Scope list_scope.
Local Open Scope Z_scope.

(** The loop of utilities.py 8-14 and of processor.py 83-89: [left] is what is left of the current block, [full] the size of
    the following ones.  OutOfFuel stands for a loop that does not end. *)
Fixpoint block_loop (fuel : nat) (num_samples counter left full : Z) (sizes : list Z) : res (list Z) :=
  match fuel with
  | O => Err OutOfFuel
  | S k =>
    if counter <? num_samples then
      let block_len := Z.min (num_samples - counter) left in
      let left := left - block_len in
      block_loop k num_samples (counter + block_len) (if left =? 0 then full else left) full (sizes ++ [block_len])
    else Ok sizes
  end.
(** every block has at least one sample, but for the first one if start lies beyond the block *)
Definition block_fuel (num_samples left : Z) : nat := Z.to_nat (Z.max 0 num_samples + Z.max 0 (- left) + 2).
(** utilities.py 4-15 (calc_block_sizes) *)
Definition calc_block_sizes (num_samples start_idx block_size : Z) : res (list Z) :=
  let left := block_size - start_idx in block_loop (block_fuel num_samples left) num_samples 0 left block_size [].
(** processor.py 79-90 (calc_block_sizes_with_buffer) *)
Definition calc_block_sizes_with_buffer (num_samples idx buffer_size chunk_size : Z) : res (list Z) :=
  let left := chunk_size + buffer_size - idx in block_loop (block_fuel num_samples left) num_samples 0 left chunk_size [].

(** processor.py 93-101 (find_first_index_for_block); // rounds down, by 0 it raises ZeroDivisionError *)
Definition find_first_index_for_block (earliest_start_index index_to_end_at block_size : Z) : res Z :=
  let num_samples := index_to_end_at - earliest_start_index in
  if block_size =? 0 then Err ZeroDivisionError
  else let num_blocks := num_samples / block_size in Ok (index_to_end_at - block_size * num_blocks).
(** processor.py 103-117 (block_process_until_index), all pairs the generator yields *)
Definition block_process_until_index (earliest_start_index index_to_end_at block_size : Z) : res (list (Z * Z)) :=
  let num_samples := index_to_end_at - earliest_start_index in
  if block_size =? 0 then Err ZeroDivisionError
  else let num_blocks := num_samples / block_size in
       let index_to_start_at := index_to_end_at - block_size * num_blocks in
       Ok (map (fun i => (index_to_start_at + i * block_size, index_to_start_at + (i + 1) * block_size)) (zrange 0 num_blocks)).

(** simulator.py 335-339: the inner loop; [i] is the next number to try *)
Fixpoint rename_loop (fuel : nat) (names : list string) (name new_name : string) (i : Z) : res string :=
  match fuel with
  | O => Err OutOfFuel
  | S k => if smem new_name names then rename_loop k names name (name ++ " " ++ py_str i)%string (i + 1) else Ok new_name
  end.
(** simulator.py 332-341 (set_unique_processor_names); a processor is represented by its name *)
Definition set_unique_processor_names (procs : list string) : res (list string) :=
  foldM (fun names name => new_name <- rename_loop (S (S (length names))) names name name 1 ;; Ok (names ++ [new_name])) [] procs.
