(** C77: redrawing a row of the input line.  [wc_gl ce] is wcwidth_iter; the code points are Unicode scalar values. *)
From Verif Require Import Base UtfSpec WidthModel DispModel DispSpec DispTerm DispDiff DispUpdate DispRedraw DispWc.
Open Scope nat_scope.

(** valid Unicode text *)
Definition unicode (t : text) : Prop := Forall (fun c : tch => scalar (fst c)) t.

Section C77.
Variable ce : bool.
Variable W : nat.
(** whatever is in memory before the text *)
Variable before : nat -> tch.
Local Notation gl := (wc_gl ce).

(** The row shows the new line and nothing else, whatever the old line was, if the new line does not end further left, or has no
    two blanks side by side and none at its beginning, or may not be cleared to the end of the row. *)
Theorem redraw_row wk o d p row :
  unicode (l_text d) -> fits gl W d -> one_face gl (l_text d) ->
  match o with Some ol => unicode (l_text ol) /\ fits gl W ol /\ (wk = true -> l_x ol <= l_x d) | None => True end ->
  whole p -> old_row gl W p o (l_x d) row ->
  (l_toeol d = false \/ match o with Some ol => l_lastcol ol <= l_lastcol d | None => True end \/ tidy (l_text d)) ->
  on_terminal gl W (update_line gl W before wk false o d) row = shown gl W p (l_text d).
Proof. apply (redraw_ok gl W scalar (wc_solid ce) (wc_iterates ce)). Qed.

(** With a prompt at the right end of the row: the row shows the new line, and the prompt stays. *)
Theorem redraw_keeps_right_prompt wk ol d p row n v :
  unicode (l_text d) -> fits gl W d -> one_face gl (l_text d) -> unicode (l_text ol) -> fits gl W ol ->
  whole p -> length p = l_x d -> l_x ol = l_x d -> mend 0 v = v -> row = p ++ cells gl (l_text ol) ++ blanks n ++ v -> length row = W ->
  length (cells gl (l_text d)) <= length (cells gl (l_text ol)) + n ->
  on_terminal gl W (update_line gl W before wk true (Some ol) d) row = p ++ cells gl (l_text d) ++ blanks (length (cells gl (l_text ol)) + n - length (cells gl (l_text d))) ++ v.
Proof. apply (redraw_right_prompt gl W scalar (wc_solid ce) (wc_iterates ce)). Qed.
End C77.
Print Assumptions redraw_row.
Print Assumptions redraw_keeps_right_prompt.

(** ** Without the condition on blanks it is false: deleting a word between two blanks makes the rest of the line disappear *)
Definition redraw_row_any : Prop := forall ce W before wk o d p row,
  unicode (l_text d) -> fits (wc_gl ce) W d -> one_face (wc_gl ce) (l_text d) ->
  match o with Some ol => unicode (l_text ol) /\ fits (wc_gl ce) W ol /\ (wk = true -> l_x ol <= l_x d) | None => True end ->
  whole p -> old_row (wc_gl ce) W p o (l_x d) row ->
  on_terminal (wc_gl ce) W (update_line (wc_gl ce) W before wk false o d) row = shown (wc_gl ce) W p (l_text d).
Definition plain (l : list N) : text := map (fun c => (c, f_normal)) l.
(** a x b, and a  b *)
Definition axb : line := mkL (plain [97; 32; 120; 32; 98]%N) 0 5 2 7 0 0 false true.
Definition a_b : line := mkL (plain [97; 32; 32; 98]%N) 0 4 2 6 0 0 false true.
Definition prompt2 : list cell := [Glyph (plain [62]%N) 1; Blank].
Lemma prompt2_whole : whole prompt2. Proof. intro l. reflexivity. Qed.
Lemma unicode_b t : forallb (fun c : tch => (0 <? fst c)%N && (fst c <? 55296)%N) t = true -> unicode t.
Proof. intro H. rewrite forallb_forall in H. apply Forall_forall. intros c Hc. specialize (H c Hc). unfold scalar. lia. Qed.
Lemma axb_fits : fits (wc_gl true) 20 axb. Proof. exists (l_text axb). split; [reflexivity|]. split; [vm_compute; reflexivity|cbn; lia]. Qed.
Lemma a_b_fits : fits (wc_gl true) 20 a_b. Proof. exists (l_text a_b). split; [reflexivity|]. split; [vm_compute; reflexivity|cbn; lia]. Qed.
Lemma one_face_plain l : Forall (fun g : cluster => Forall (fun c => snd c = f_normal) (fst g) /\ fst g <> []) (wc_gl true (plain l)) -> one_face (wc_gl true) (plain l).
Proof. unfold one_face. apply Forall_impl. intros [t w] [H N]. cbn [fst] in *. assert (E : last_face t = f_normal). { unfold last_face. destruct (exists_last N) as (u & c & E). subst t. rewrite last_last. apply Forall_app in H as [_ H]. inversion H. assumption. } rewrite E. exact H. Qed.
Lemma a_b_face : one_face (wc_gl true) (l_text a_b).
Proof. apply one_face_plain. change (plain [97; 32; 32; 98]%N) with (l_text a_b). assert (E : wc_gl true (l_text a_b) = [(plain [97%N], 1%Z); (plain [32%N], 1%Z); (plain [32%N], 1%Z); (plain [98%N], 1%Z)]) by (vm_compute; reflexivity). rewrite E. repeat (constructor; [split; [repeat (constructor; [reflexivity|]); constructor|discriminate]|]). constructor. Qed.
Lemma axb_old : old_row (wc_gl true) 20 prompt2 (Some axb) (l_x a_b) (shown (wc_gl true) 20 prompt2 (l_text axb)).
Proof. split; [split; vm_compute; reflexivity|]. left. exists []. split; vm_compute; reflexivity. Qed.
Theorem redraw_row_any_refuted : ~ redraw_row_any.
Proof.
  intro H. specialize (H true 20 (fun _ => (0%N, 0%N)) false (Some axb) a_b prompt2 (shown (wc_gl true) 20 prompt2 (l_text axb)) (unicode_b (l_text a_b) eq_refl) a_b_fits a_b_face (conj (unicode_b (l_text axb) eq_refl) (conj axb_fits (fun E => False_ind _ (Bool.diff_false_true E)))) prompt2_whole axb_old).
  vm_compute in H. discriminate H.
Qed.
Print Assumptions redraw_row_any_refuted.
(** the row: only the first word is left of [a  b] *)
Example word_lost : on_terminal (wc_gl true) 20 (update_line (wc_gl true) 20 (fun _ => (0%N, 0%N)) false false (Some axb) a_b) (shown (wc_gl true) 20 prompt2 (l_text axb))
  = shown (wc_gl true) 20 prompt2 (plain [97%N]).
Proof. vm_compute. reflexivity. Qed.

(** ** Examples *)
(** a word is replaced by a shorter one before a wide character; the new line ends further left *)
Definition ex_o : line := mkL (plain [100; 101; 108; 32; 97; 98; 32; 26085; 32; 99]%N) 0 12 2 13 0 0 false true.
Definition ex_d : line := mkL (plain [100; 32; 97; 98; 32; 26085; 32; 99]%N) 0 10 2 11 0 0 false true.
Lemma ex_o_fits : fits (wc_gl true) 20 ex_o. Proof. exists (l_text ex_o). split; [reflexivity|]. split; [vm_compute; reflexivity|cbn; lia]. Qed.
Lemma ex_d_fits : fits (wc_gl true) 20 ex_d. Proof. exists (l_text ex_d). split; [reflexivity|]. split; [vm_compute; reflexivity|cbn; lia]. Qed.
Lemma ex_d_face : one_face (wc_gl true) (l_text ex_d).
Proof.
  apply one_face_plain. change (plain [100; 32; 97; 98; 32; 26085; 32; 99]%N) with (l_text ex_d). assert (E : wc_gl true (l_text ex_d) = [(plain [100%N], 1%Z); (plain [32%N], 1%Z); (plain [97%N], 1%Z); (plain [98%N], 1%Z); (plain [32%N], 1%Z); (plain [26085%N], 2%Z); (plain [32%N], 1%Z); (plain [99%N], 1%Z)]) by (vm_compute; reflexivity). rewrite E.
  repeat (constructor; [split; [repeat (constructor; [reflexivity|]); constructor|discriminate]|]). constructor.
Qed.
Lemma ex_tidy : tidy (l_text ex_d). Proof. repeat (split; [intro E; try discriminate E; reflexivity|]). exact Logic.I. Qed.
Example redraw_ex : on_terminal (wc_gl true) 20 (update_line (wc_gl true) 20 (fun _ => (0%N, 0%N)) false false (Some ex_o) ex_d) (shown (wc_gl true) 20 prompt2 (l_text ex_o)) = shown (wc_gl true) 20 prompt2 (l_text ex_d).
Proof.
  apply (redraw_row true 20 (fun _ => (0%N, 0%N)) false (Some ex_o) ex_d prompt2 _ (unicode_b (l_text ex_d) eq_refl) ex_d_fits ex_d_face (conj (unicode_b (l_text ex_o) eq_refl) (conj ex_o_fits (fun E => False_ind _ (Bool.diff_false_true E)))) prompt2_whole).
  - split; [split; vm_compute; reflexivity|]. left. exists []. split; vm_compute; reflexivity.
  - right. right. exact ex_tidy.
Qed.
Example redraw_ops : update_line (wc_gl true) 20 (fun _ => (0%N, 0%N)) false false (Some ex_o) ex_d = [Move 3; Del 2; Print []; Move 11; Print (spaces 2)].
Proof. vm_compute. reflexivity. Qed.
(** with a prompt on the right *)
Definition ex_right : list cell := [Glyph (plain [49%N]) 1; Glyph (plain [50%N]) 1].
Example right_prompt_ex : on_terminal (wc_gl true) 20 (update_line (wc_gl true) 20 (fun _ => (0%N, 0%N)) false true (Some ex_o) ex_d) (prompt2 ++ cells (wc_gl true) (l_text ex_o) ++ blanks 5 ++ ex_right) = prompt2 ++ cells (wc_gl true) (l_text ex_d) ++ blanks 7 ++ ex_right.
Proof.
  assert (E : prompt2 ++ cells (wc_gl true) (l_text ex_d) ++ blanks 7 ++ ex_right = prompt2 ++ cells (wc_gl true) (l_text ex_d) ++ blanks (length (cells (wc_gl true) (l_text ex_o)) + 5 - length (cells (wc_gl true) (l_text ex_d))) ++ ex_right) by (vm_compute; reflexivity). rewrite E.
  apply (redraw_keeps_right_prompt true 20 (fun _ => (0%N, 0%N)) false ex_o ex_d prompt2 _ 5 ex_right (unicode_b (l_text ex_d) eq_refl) ex_d_fits ex_d_face (unicode_b (l_text ex_o) eq_refl) ex_o_fits prompt2_whole eq_refl eq_refl); try (vm_compute; reflexivity). vm_compute. lia.
Qed.
