(** C81, C82: session streams (clink.opensessionstream) behave as files, and never touch memory that is not theirs. *)
From Verif Require Import Base SsModel SsSpec SsProofs SsRead SsSim SsMem SsLines.
Open Scope nat_scope.

(** C81 *)
Theorem session_streams_are_files : forall MX B K junk ops, 2 <= B <= MX -> fine_run MX B ops (mkFs [] []) ->
  exists w, run MX B K junk ops start = Some (w, snd (frun MX ops (mkFs [] []))) /\
    map fst (w_streams w) = map fst (fs_files (fst (frun MX ops (mkFs [] [])))) /\
    map (fun x => avail 0 (snd x)) (w_streams w) = map snd (fs_files (fst (frun MX ops (mkFs [] [])))).
Proof.
  intros MX B K junk ops [HB HM] Hf. destruct (run_ok MX B K junk HB HM ops start (start_winv MX) Hf) as (w & rs & E1 & _ & E2). change (abs start) with (mkFs [] []) in E2. rewrite E2. exists w. cbn [fst snd]. split; [exact E1|]. unfold abs. cbn [fs_files]. rewrite !map_map. split; apply map_ext; intros [n s]; reflexivity.
Qed.
Theorem session_modes : forall m, parse_mode m = match split_mode m with (Some x, text) => Some (mode_flags x text) | (None, _) => None end.
Proof. exact modes. Qed.
Theorem session_text_round_trip : forall MX B K junk name (text : bool) strs, 2 <= B <= MX -> name <> [] -> length (concat (map (enc text) strs)) <= MX - 1 ->
  exists w, run MX B K junk (session name text strs [All]) start = Some (w, [Opened 0; Done; Done; Opened 1; Got [Some (concat strs)]]).
Proof. intros MX B K junk name text strs [HB HM] Hn Hl. exact (whole_file MX B K junk HB HM name Hn text strs Hl). Qed.
Theorem session_lines_round_trip : forall MX B K junk name (text : bool) lines, 2 <= B <= MX -> name <> [] -> Forall (plain B text) lines -> length (concat (map (enc text) (map terminated lines))) <= MX - 1 ->
  exists w, run MX B K junk (session name text (map terminated lines) (repeat Line (length lines + 1))) start = Some (w, [Opened 0; Done; Done; Opened 1; Got (map Some lines ++ [None])]).
Proof. intros MX B K junk name text lines [HB HM] Hn Hg Hl. exact (line_by_line MX B K junk HB HM name Hn text lines Hg Hl). Qed.

(** without the conditions of [fine] it is false; the claims a user would make, and why they fail *)
Definition R : bytes := [114]%N.
Definition Wm : bytes := [119]%N.
Definition Wp : bytes := [119; 43]%N.
Definition nm : bytes := [120]%N.
Definition results (MX B K : nat) (junk : nat -> N) (ops : list op) : option (list res) := match run MX B K junk ops start with Some (_, rs) => Some rs | None => None end.

(** reading no characters says whether there is more: it says the opposite *)
Theorem session_read_zero_refuted : ~ (forall MX B K junk s, 2 <= B <= MX -> length s < MX -> s <> [] ->
  results MX B K junk [Open nm Wp; Write 0 [s]; Seek 0 Set_ 0; Read 0 [Chars 0]] = Some [Opened 0; Done; Pos 0; Got [Some []]]).
Proof. intro H. specialize (H 64 16 8 (fun _ => 0%N) [97%N] ltac:(lia) ltac:(cbn; lia) ltac:(discriminate)). vm_compute in H. discriminate H. Qed.
(** what lies between the end and a position past it does not depend on what memory held: it does *)
Theorem session_gap_refuted : ~ (forall MX B K junk junk' ops, 2 <= B <= MX -> results MX B K junk ops = results MX B K junk' ops).
Proof. intro H. specialize (H 64 16 8 (fun _ => 0%N) (fun _ => 83%N) [Open nm Wp; Seek 0 Set_ 3; Write 0 [[97%N]]; Seek 0 Set_ 0; Read 0 [All]] ltac:(lia)). vm_compute in H. discriminate H. Qed.
(** a position before the beginning is refused: it becomes the largest position *)
Theorem session_seek_negative_refuted : ~ (forall MX B K junk z, 2 <= B <= MX -> (z < 0)%Z -> results MX B K junk [Open nm Wp; Seek 0 Set_ z] = Some [Opened 0; Failed]).
Proof. intro H. specialize (H 64 16 8 (fun _ => 0%N) (-1)%Z ltac:(lia) ltac:(lia)). vm_compute in H. discriminate H. Qed.
(** a line of text comes back as it was written, whatever its length: not if its CR is the last byte that fits the buffer (510 characters for BUFSIZ 512) *)
Theorem session_long_line_refuted : ~ (forall MX K junk l, 512 <= MX -> ~ In 10%N l -> ~ In 0%N l -> length l + 2 < MX ->
  results MX 512 K junk (session nm true [terminated l] [Line]) = Some [Opened 0; Done; Done; Opened 1; Got [Some l]]).
Proof.
  intro H. assert (X : forall x n, ~ In x (repeat 97%N n) \/ x = 97%N). { intros x n. destruct (N.eq_dec x 97) as [->|Hx]; [right; reflexivity|]. left. intro Hin. apply repeat_spec in Hin. exact (Hx Hin). }
  specialize (H 1024 64 (fun _ => 0%N) (repeat 97%N 510) ltac:(lia)). specialize (H ltac:(destruct (X 10%N 510) as [Y|Y]; [exact Y|discriminate Y]) ltac:(destruct (X 0%N 510) as [Y|Y]; [exact Y|discriminate Y]) ltac:(rewrite repeat_length; lia)). vm_compute in H. discriminate H.
Qed.
(** a line with a NUL in it comes back as it was written: what follows the NUL is lost, and the next line is joined *)
Theorem session_nul_line_refuted : ~ (forall MX B K junk l l', 2 <= B <= MX -> ~ In 10%N l -> ~ In 10%N l' -> length l + length l' + 2 < MX ->
  results MX B K junk (session nm false [terminated l; terminated l'] [Line; Line]) = Some [Opened 0; Done; Done; Opened 1; Got [Some l; Some l']]).
Proof. intro H. specialize (H 64 16 8 (fun _ => 0%N) [97; 0; 98]%N [99]%N ltac:(lia)). specialize (H ltac:(cbn; intuition discriminate) ltac:(cbn; intuition discriminate) ltac:(cbn; lia)). vm_compute in H. discriminate H. Qed.
(** io.truncate that says it did leaves nothing after the position: with a handle for reading it does nothing and says it did *)
Theorem session_truncate_refuted : ~ (forall MX B K junk s m rs, 2 <= B <= MX -> length s < MX ->
  results MX B K junk [Open nm (Wm ++ [98%N]); Write 0 [s]; Open nm m; Trunc 1; Read 1 [All]] = Some (rs ++ [Done; Got [Some s]]) -> s = []).
Proof. intro H. specialize (H 64 16 8 (fun _ => 0%N) [97%N] (R ++ [98%N]) [Opened 0; Done; Opened 1] ltac:(lia) ltac:(cbn; lia)). specialize (H ltac:(vm_compute; reflexivity)). discriminate H. Qed.

(** C82: never an access outside the memory of the stream; never more than MX - 1 bytes; the text a number is read from ends inside the memory *)
Theorem session_streams_in_bounds : forall MX B K junk ops, 2 <= B <= MX -> exists w rs, run MX B K junk ops start = Some (w, rs) /\
  forall name s, In (name, s) (w_streams w) -> s_size s <= MX - 1 /\ s_size s <= s_cap s <= MX /\
    forall off, off < s_size s -> off + length (number_text off s) < s_cap s.
Proof.
  intros MX B K junk ops [HB HM]. destruct (run_safe MX B K junk HB HM ops start (start_winv MX)) as (w & rs & E & W). exists w, rs. split; [exact E|]. intros name s Hin. unfold winv in W. rewrite Forall_forall in W. specialize (W _ Hin). cbn [snd] in W. split; [exact (file_max MX s W)|]. split.
  - unfold inv in W. lia.
  - intros off Ho. rewrite Nat.add_comm. apply number_stops; [|exact Ho]. pose proof (run_nul MX B K junk HB HM false ops start w rs (start_winv MX) ltac:(discriminate) (Forall_nil _) E) as X. unfold all_streams in X. rewrite Forall_forall in X. exact (X _ Hin).
Qed.
(** a number is read from what the stream holds, if io.truncate is not used *)
Theorem session_number_own : forall MX B K junk ops w rs, 2 <= B <= MX -> (forall h, ~ In (Trunc h) ops) -> run MX B K junk ops start = Some (w, rs) ->
  forall name s off, In (name, s) (w_streams w) -> off < s_size s -> number_text off s = upto_nul (avail off s).
Proof.
  intros MX B K junk ops w rs [HB HM] Ht E name s off Hin Ho. apply number_own; [|exact Ho]. pose proof (run_nul MX B K junk HB HM true ops start w rs (start_winv MX) (fun _ => Ht) (Forall_nil _) E) as X. unfold all_streams in X. rewrite Forall_forall in X. exact (X _ Hin).
Qed.
(** if it is used, digits that are no longer there are read *)
Theorem session_number_truncated_refuted : ~ (forall MX B K junk ops w rs, 2 <= B <= MX -> run MX B K junk ops start = Some (w, rs) ->
  forall name s off, In (name, s) (w_streams w) -> off < s_size s -> number_text off s = upto_nul (avail off s)).
Proof.
  intro H. set (ops := [Open nm Wp; Write 0 [[49; 50; 51; 52]%N]; Seek 0 Set_ 2; Trunc 0]).
  assert (X : exists w rs s, run 64 16 8 (fun _ => 0%N) ops start = Some (w, rs) /\ In (nm, s) (w_streams w) /\ 0 < s_size s /\ number_text 0 s <> upto_nul (avail 0 s)).
  { eexists. eexists. eexists. split; [vm_compute; reflexivity|]. split; [left; reflexivity|]. split; [vm_compute; lia|]. vm_compute. discriminate. }
  destruct X as (w & rs & s & E & Hin & Ho & Hne). exact (Hne (H 64 16 8 (fun _ => 0%N) ops w rs ltac:(lia) E nm s 0 Hin Ho)).
Qed.

(** examples *)
Definition ops1 : list op := [Open nm Wp; Write 0 [[97; 10; 98]%N; [99; 10]%N]; Open nm [97; 43]%N; Write 1 [[100%N]]; Seek 0 Set_ 0; Read 0 [Line; LineL; Chars 3; Line]; Seek 0 End_ (-2); Read 0 [Chars 1; All]; Trunc 1; Close 1; Write 1 []; Open nm [113%N]; Open [] R; Open [121%N] R].
Example ops1_fine : fine_run 64 16 ops1 (mkFs [] []). Proof. vm_compute. intuition (try discriminate; try lia). Qed.
Example ops1_results : results 64 16 8 (fun _ => 83%N) ops1 = Some [Opened 0; Done; Opened 1; Done; Pos 0; Got [Some [97]; Some [98; 99; 10]; Some [100]; None]; Pos 6; Got [Some [10]; Some [100]]; Done; Done; Error; Error; Failed; Failed]%N.
Proof. vm_compute. reflexivity. Qed.
Example plain_line : Forall (plain 16 true) [[97; 98]; []; [13]]%N. Proof. repeat apply Forall_cons; try apply Forall_nil; (split; [cbn; intuition discriminate|split; [cbn; intuition discriminate|intros _; vm_compute; discriminate]]). Qed.
Example lines_example : results 64 16 8 (fun _ => 83%N) (session nm true (map terminated [[97; 98]; []; [13]]%N) (repeat Line 4)) = Some [Opened 0; Done; Done; Opened 1; Got [Some [97; 98]; Some []; Some [13]; None]]%N.
Proof. vm_compute. reflexivity. Qed.
Example too_much : results 16 8 4 (fun _ => 83%N) [Open nm Wp; Write 0 [repeat 97%N 20]; Seek 0 Set_ 10; Read 0 [All]] = Some [Opened 0; Failed; Pos 10; Got [Some [97; 97; 97; 97; 97]]]%N.
Proof. vm_compute. reflexivity. Qed.

Print Assumptions session_streams_are_files.
Print Assumptions session_modes.
Print Assumptions session_text_round_trip.
Print Assumptions session_lines_round_trip.
Print Assumptions session_read_zero_refuted.
Print Assumptions session_gap_refuted.
Print Assumptions session_seek_negative_refuted.
Print Assumptions session_long_line_refuted.
Print Assumptions session_nul_line_refuted.
Print Assumptions session_truncate_refuted.
Print Assumptions session_streams_in_bounds.
Print Assumptions session_number_own.
Print Assumptions session_number_truncated_refuted.
