(** Commands that change the line: pasting, the selection, slashes (clink/lib/src/rl/rl_commands.cpp 110-285, 638-680,
    726-756, 1312-1383, 1541-1585), with the operations of rl_buffer (clink/lib/src/rl/rl_buffer.cpp 119-165) and the
    Readline functions behind them (readline/readline/text.c 98-186, 1026-1033, 1335, 1405). *)
From Verif Require Import Base QueueModel.
Open Scope N_scope.

(** clink.paste_crlf, 81-91 *)
Inductive setting := PDelete | PSpace | PAmpersand | PCrlf.
(** 110-157: the text without CR and LF as wanted, and has_overflow; [prev]: prev_was_crlf *)
Fixpoint strip_loop (st : setting) (prev : bool) (t : list N) : list N * bool :=
  match t with
  | [] => ([], false)
  | c :: t' =>
      if negb (c =? 10) && negb (c =? 13) then let '(o, h) := strip_loop st false t' in (c :: o, h)
      else if negb prev then
        match st with
        | PDelete => strip_loop st prev t'
        | PSpace => let '(o, h) := strip_loop st true t' in (32 :: o, h)
        | PAmpersand => let '(o, h) := strip_loop st true t' in (38 :: o, h)
        | PCrlf => let '(o, _) := strip_loop st prev t' in (if c =? 10 then 10 :: o else o, true)
        end
      else strip_loop st prev t'
  end.
(** 165-178: up to a LF, which is included; whether there was one; what follows *)
Fixpoint to_lf (t : list N) : list N * bool * list N :=
  match t with
  | [] => ([], false, [])
  | c :: t' => if c =? 10 then ([c], true, t') else let '(a, b, r) := to_lf t' in (c :: a, b, r)
  end.
(** 162-196, after the first line *)
Fixpoint split_rest (fuel : nat) (t : list N) : list (list N) * bool :=
  match fuel, t with
  | O, _ => ([], false)
  | _, [] => ([], false)
  | S f, _ => let '(a, b, r) := to_lf t in let '(l, d) := split_rest f r in (a :: l, b || d)
  end.
(** strip_crlf, 110-200: what is left in the line, the overflow and done *)
Definition strip_crlf (st : setting) (t : list N) : list N * list (list N) * bool :=
  let '(o, h) := strip_loop st false t in
  if h then
    match o with
    | [] => ([], [], false)
    | _ => let '(a, b, r) := to_lf o in let '(l, d) := split_rest (length r) r in (if b then removelast a else a, l, b || d)
    end
  else (o, [], false).

(** rl_line_buffer, rl_point, s_cua_anchor *)
Record line := mkL { l_text : list N; l_point : nat; l_anchor : option nat }.
(** rl_buffer::set_cursor, 119-129 *)
Definition set_cursor (b : line) (p : nat) : line := mkL (l_text b) (Nat.min p (length (l_text b))) None.
(** rl_delete_text *)
Definition delete_text (b : line) (from to : nat) : line :=
  let lo := Nat.min from to in let hi := Nat.min (Nat.max from to) (length (l_text b)) in let lo := Nat.min lo hi in
  mkL (firstn lo (l_text b) ++ skipn hi (l_text b)) (l_point b) (l_anchor b).
(** rl_buffer::remove, 154-164 *)
Definition remove (b : line) (from to : nat) : line := let b' := delete_text b from (Nat.min to (length (l_text b))) in set_cursor b' (l_point b').
(** rl_insert_text *)
Definition insert_text (b : line) (t : list N) : line := mkL (firstn (l_point b) (l_text b) ++ t ++ skipn (l_point b) (l_text b)) (l_point b + length t) (l_anchor b).
(** cua_delete, 666-679 *)
Definition cua_delete (b : line) : line :=
  match l_anchor b with
  | None => b
  | Some a =>
      let '(a, p) := if (a <? l_point b)%nat then (l_point b, a) else (a, l_point b) in
      let b' := remove (mkL (l_text b) p (Some a)) a p in mkL (l_text b') (l_point b') None
  end.
(** cua_selection_manager, 641-663, around a command that moves the cursor to [p] *)
Definition cua_move (b : line) (p : nat) : line := mkL (l_text b) p (match l_anchor b with None => Some (l_point b) | a => a end).
(** cua_select_all, 1555-1561 *)
Definition cua_select_all (b : line) : line := mkL (l_text b) (length (l_text b)) (Some O).
(** cua_set_selection, 1321-1330 *)
Definition cua_set_selection (b : line) (anchor point : nat) : line := mkL (l_text b) (Nat.min (length (l_text b)) point) (Some (Nat.min (length (l_text b)) anchor)).
(** cua_point_in_selection, 1339-1347 *)
Definition in_selection (b : line) (i : nat) : bool :=
  match l_anchor b with
  | None => false
  | Some a => if (a <? l_point b)%nat then ((a <=? i) && (i <? l_point b))%nat else ((l_point b <=? i) && (i <? a))%nat
  end.
(** cua_copy, 1564-1578: what is in the clipboard afterwards *)
Definition cua_copy (b : line) (clip : list N) : list N :=
  let len := length (l_text b) in
  let beg := match l_anchor b with Some a => Nat.min len a | None => O end in
  let fin := match l_anchor b with Some _ => Nat.min len (l_point b) | None => len end in
  let '(beg, fin) := if (fin <? beg)%nat then (fin, beg) else (beg, fin) in
  if (beg <? fin)%nat then firstn (fin - beg) (skipn beg (l_text b)) else clip.
(** cua_cut, 1581-1586 *)
Definition cua_cut (b : line) (clip : list N) : line * list N := (cua_delete b, cua_copy b clip).
(** a character is typed: rl_insert with SEL_BEFORE_INSERTCHAR, 1359-1366 *)
Definition type_text (b : line) (t : list N) : line := insert_text (match l_anchor b with Some _ => cua_delete b | None => b end) t.
(** Delete and Backspace with SEL_BEFORE_DELETE, 1375-1379; [del]: what Readline does without a selection *)
Definition delete_key (del : line -> line) (b : line) : line :=
  match l_anchor b with Some a => if (a =? l_point b)%nat then del b else cua_delete b | None => del b end.
(** cua_clear_selection by cua_after_command, 1386-1426, after a command that is none of the cua commands *)
Definition clear_selection (b : line) : line := mkL (l_text b) (l_point b) None.

Section Paste.
(** the control characters of CtrlWakeupMask (C48) *)
Variable wake : N -> bool.
(** clink_paste, 726-756: the line, the queue, whether the line is accepted *)
Definition paste (st : setting) (clip : list N) (b : line) (q : list qline) : line * list qline * bool :=
  let '(t, overflow, done) := strip_crlf st clip in
  let t := filter (fun c => negb (wake c)) t in
  let b := match l_anchor b with Some _ => cua_delete b | None => b end in
  (insert_text b t, fold_left enqueue_back overflow q, done).
End Paste.

(** toggle_slashes_in_rl_buffer, 237-271; 0: no separator *)
Definition is_separator (c : N) : bool := (c =? 47) || (c =? 92).
Fixpoint last_kind (sep : N) (w : list N) : N :=
  match w with
  | [] => sep
  | c :: w' => if is_separator c then (if negb (sep =? 0) && negb (sep =? c) then c else last_kind c w') else last_kind sep w'
  end.
(** path::normalise_separators, clink/core/src/path.cpp 243-251 *)
Definition normalise_separators (sep : N) (w : list N) : list N := map (fun c => if is_separator c && negb (c =? sep) then sep else c) w.
Definition toggle_slashes (b : line) (offset len : nat) : option line :=
  let word := firstn len (skipn offset (l_text b)) in
  let sep := last_kind 0 word in
  let go sep := let w := normalise_separators sep word in let b := remove b offset (offset + len) in let b := set_cursor b offset in Some (insert_text b w) in
  if sep =? 47 then go 92 else if sep =? 92 then go 47 else None.
