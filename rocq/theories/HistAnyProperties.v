(** C01 and C18 for arbitrary files: lines longer than the buffer, missing final line breaks, offsets that do not fit
    into an id. *)
From Verif Require Import Base HistFileModel HistSpec HistFileProofs HistAnyProofs HistDbModel HistDbProofs.

(** Reading ends on every file, through every buffer, and every entry is a piece of the file, at its offset, without
    line breaks, in file order and without overlap.  (in_order is defined in HistAnyProofs on the entries alone.) *)
Theorem c01_any_file : forall garbage rs f, 0 < length garbage ->
  exists es d, read_bank garbage rs f = Some (es, d) /\ in_order f 0 es.
Proof. exact read_any. Qed.
Print Assumptions c01_any_file.

(** A file with a line of the size of the buffer and no line break at the end. *)
Example c01_any_example :
  option_map fst (read_bank (repeat NUL 4) [] (lit "abcd" ++ [LF] ++ lit "ab" ++ [LF] ++ lit "x" ++ [LF] ++ lit "y")) =
    Some [mkEntry 0 (lit "abcd") None; mkEntry 5 (lit "ab") None; mkEntry 8 (lit "x") None] /\
  in_order (lit "abcd" ++ [LF] ++ lit "ab" ++ [LF] ++ lit "x" ++ [LF] ++ lit "y") 0
    [mkEntry 0 (lit "abcd") None; mkEntry 5 (lit "ab") None; mkEntry 8 (lit "x") None].
Proof.
  split; [vm_compute; reflexivity|]. cbn [in_order e_off e_text].
  repeat (split; [first [discriminate|vm_compute; reflexivity|vm_compute; lia]|]). exact I.
Qed.

(** The terminating line break is needed in C01: the last line of a file that lacks it is not read, unless it happens
    to begin at the start of the buffer. *)
Theorem c01_unterminated_refuted :
  option_map (fun p => map e_text (fst p)) (read_bank (repeat NUL 16) [] (lit "dir" ++ [LF] ++ lit "cd")) = Some [lit "dir"] /\
  option_map (fun p => map e_text (fst p)) (read_bank (repeat NUL 16) [] (lit "cd")) = Some [lit "cd"].
Proof. split; vm_compute; reflexivity. Qed.
Print Assumptions c01_unterminated_refuted.

(** An id made for an offset that does not fit is refused: removing by it changes nothing. *)
Theorem c18_too_big_refused : forall bank o m s, (536870911 <= N.of_nat o)%N ->
  db_remove (line_id bank o) m s = (m, s, false).
Proof.
  intros bank o m s Ho. unfold line_id, too_big.
  replace (c_max_offset <=? N.of_nat o)%N with true by (unfold c_max_offset; lia).
  unfold db_remove. destruct (N.eqb_spec (pack bank c_max_offset) 0) as [_|_]; [reflexivity|].
  destruct (N.eqb (id_bank (pack bank c_max_offset)) bank_master && negb (tag_ok m (s_ctag s))); [reflexivity|].
  unfold lock_remove.
  assert (id_offset (pack bank c_max_offset) = c_max_offset) as ->.
  { unfold id_offset, pack, c_max_offset, two29, two31. lia. }
  rewrite N.eqb_refl. reflexivity.
Qed.
Print Assumptions c18_too_big_refused.

Example c18_too_big_example : exists o, (536870911 <= N.of_nat o)%N.
Proof. exists (N.to_nat 600000000). rewrite N2Nat.id. lia. Qed.
