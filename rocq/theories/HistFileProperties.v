(** Properties of history files: C01. *)
From Verif Require Import Base HistFileModel HistSpec HistFileProofs.

(** C01: reading through any buffer longer than the longest line equals splitting the whole file. *)
Theorem c01_read_buffer_independent : forall garbage rs f,
  terminated f -> lines_fit (length garbage) (lines_of f) -> 0 < length garbage ->
  exists es d, read_bank garbage rs f = Some (es, d) /\
    map to_v es = visible (removed_in rs) f /\
    (head_ok f -> d = deleted_count (removed_in rs) f).
Proof. exact read_bank_ok. Qed.
Print Assumptions c01_read_buffer_independent.

(** A file with a tag, a time stamp, a deleted line and CR LF; buffer of 15 bytes, all NUL. *)
Definition ex_file : bytes :=
  lit "|CTAG_1_2_3_4" ++ [LF] ++ TIME ++ lit "77" ++ [LF] ++ lit "dir" ++ [CR; LF]
    ++ lit "|el a" ++ [LF] ++ lit "echo hello" ++ [LF] ++ lit "cd" ++ [LF].

Example c01_example_hyps :
  terminated ex_file /\ lines_fit 15 (lines_of ex_file) /\ head_ok ex_file.
Proof.
  split; [|split].
  - right. exists (removelast ex_file), LF. split; reflexivity.
  - unfold lines_fit. vm_compute. repeat constructor.
  - vm_compute. auto.
Qed.

Example c01_example :
  option_map (fun p => (map to_v (fst p), snd p)) (read_bank (repeat NUL 15) [35] ex_file) =
  Some ([mkV 24 (lit "dir") (Some (14, lit "77"));
         mkV 46 (lit "cd") None], 2).
Proof. vm_compute. reflexivity. Qed.
