(** The suggestion list: moving in it, what it puts in the line, and how it is drawn
    (clink/lib/src/suggestionlist_impl.cpp 410-640, 783-816, 819-1062, 1325-1405, 1431-1456). *)
From Verif Require Import Base.
Open Scope Z_scope.

Section List.
(** g_clink_scroll_offset, and _rl_menu_complete_wraparound *)
Variable ofs : Z.
Variable wrap : bool.
(** m_index, m_top, m_count, m_visible_rows, m_displayed_rows, m_ignore_scroll_offset, m_prev_displayed; and what is on the screen: the number
    of the first suggestion shown and of the selected one *)
Record st := mkS { idx : Z; top : Z; cnt : Z; vis : Z; drawn : Z; ign : bool; prev : Z; on_top : Z; on_idx : Z }.
Definition set_idx (s : st) (i : Z) : st := mkS i (top s) (cnt s) (vis s) (drawn s) (ign s) (prev s) (on_top s) (on_idx s).
Definition set_ign (s : st) (b : bool) : st := mkS (idx s) (top s) (cnt s) (vis s) (drawn s) b (prev s) (on_top s) (on_idx s).
(** set_top, 1369-1381 *)
Definition set_top (s : st) (t : Z) : st := if t =? top s then s else mkS (idx s) t (cnt s) (vis s) (drawn s) (ign s) (-1) (on_top s) (on_idx s).
(** get_scroll_offset, 1360-1366 *)
Definition scroll_offset (s : st) : Z := if ofs <=? 0 then 0 else Z.min ofs (Z.max 0 ((vis s - 1) / 2)).
(** update_top, 783-816 *)
Definition update_top (s : st) : st :=
  let y := idx s in
  let s := if y <? top s then set_top s (Z.max 0 y)
           else let rows := Z.min (cnt s) (vis s) in let t := Z.max 0 (y - (rows - 1)) in if top s <? t then set_top s t else s in
  if ign s then s
  else
    let so := scroll_offset s in
    if 0 <? so then
      let last_row := Z.max 0 (cnt s - vis s) in
      if Z.max 0 (y - so) <? top s then set_top s (Z.max 0 (y - so))
      else if top s <? Z.min last_row (y + so - drawn s + 1) then set_top s (Z.min last_row (y + so - drawn s + 1)) else s
    else s.
(** update_display, 819-1049, of an active list with suggestions; [force]: m_force_display, m_clear_display or nothing displayed *)
Definition update_display (force : bool) (s : st) : st :=
  if force || negb (prev s =? idx s) then
    let s := mkS (idx s) (top s) (cnt s) (vis s) (Z.min (vis s) (cnt s)) (ign s) (prev s) (on_top s) (on_idx s) in
    let s := update_top s in
    mkS (idx s) (top s) (cnt s) (vis s) (drawn s) (ign s) (idx s) (top s) (idx s)
  else s.
(** navigated, 446-449 *)
Definition navigated (s : st) : st := update_display false s.
Inductive input := Up | Down | PageUp | PageDown
  | Click (row : Z) (inside : bool)             (* p1 after 517, p0 is in the width of the list *)
  | Drag (row : Z) (inside : bool) (speed : option Z) (* scroll_speed if can_scroll *)
  | WheelUp (n : Z) | WheelDown (n : Z).
(** do_mouse_position, 538-559 *)
Definition mouse_position (s : st) (row revert : Z) (inside : bool) : st :=
  if inside then
    let s := set_ign (set_idx s row) true in
    navigated (if cnt s <=? idx s then set_idx (set_top s (Z.max revert (cnt s - (drawn s - 1)))) (cnt s - 1) else s)
  else s.
(** on_input, 410-620, at the beginning of a key sequence; keys that it passes on change nothing here; no scroll bar *)
Definition on_input (s : st) (i : input) : st :=
  if vis s <=? 0 then s
  else
    let s := set_ign s false in
    match i with
    | Up => navigated (if wrap then (if idx s - 1 <? -1 then set_idx s (cnt s - 1) else set_idx s (idx s - 1)) else if 0 <=? idx s then set_idx s (idx s - 1) else s)
    | Down => navigated (if cnt s <=? idx s + 1 then set_idx s (if wrap then -1 else cnt s - 1) else set_idx s (idx s + 1))
    | PageUp =>
        let y := idx s in
        let so := scroll_offset s in
        let scroll_rows := Z.min (cnt s) (vis s) - so in
        if 0 <? y then navigated (set_idx s (Z.max 0 (if y <=? top s + so then y - scroll_rows else top s + so))) else s
    | PageDown =>
        let y := idx s in
        let so := scroll_offset s in
        let scroll_rows := Z.min (cnt s) (vis s) - so in
        if y <? 0 then s
        else if y <? cnt s - 1 then
          let bottom := top s + scroll_rows - 1 in
          navigated (set_idx s (Z.min (cnt s - 1) (if y =? bottom then y + scroll_rows else bottom)))
        else s
    | Click row inside => if (0 <=? row) && (row <? drawn s) then mouse_position s (row + top s) (top s) inside else s
    | Drag row inside speed =>
        if (0 <=? row) && (row <? drawn s) then mouse_position s (row + top s) (top s) inside
        else match speed with
        | None => s
        | Some v =>
            if row <? 0 then if 0 <? top s then let r := top s in let s := set_top s (Z.max 0 (top s - v)) in mouse_position s (top s) r inside else s
            else if top s + drawn s <? cnt s then let r := top s in mouse_position (set_top s (Z.min (cnt s - drawn s) (top s + v))) (top s + drawn s) r inside else s
        end
    | WheelUp n =>
        (* min<uint32>(y, p0): -1 is the largest *)
        let s' := set_idx s (idx s - (if idx s <? 0 then n else Z.min (idx s) n)) in if idx s' =? idx s then s' else navigated s'
    | WheelDown n => let s' := set_idx s (idx s + Z.min (cnt s - 1 - idx s) n) in if idx s' =? idx s then s' else navigated s'
    end.
(** the list gets fewer rows, as the line gets longer (update_layout 777-780: never more), and is drawn again *)
Definition fewer_rows (s : st) (v : Z) : st := update_display true (mkS (idx s) (top s) (cnt s) (Z.min v (vis s)) (drawn s) (ign s) (-1) (on_top s) (on_idx s)).
(** clear_index, 1392-1404, when the line is edited *)
Definition clear_index (s : st) : st := update_display false (set_idx s (-1)).
(** new suggestions, 704-729, with the layout for them *)
Definition new_list (s : st) (c v : Z) : st := update_display true (mkS (-1) (top s) c v (drawn s) false (-1) (on_top s) (on_idx s)).
(** remove_history_index, 1431-1456: [n] suggestions are removed *)
Definition removed (s : st) (n v : Z) : st :=
  let c := cnt s - n in update_display true (mkS (if c <=? idx s then c - 1 else idx s) (top s) c (Z.min c (Z.min v (vis s))) (drawn s) (ign s) (-1) (on_top s) (on_idx s)).
End List.

(** ** the line *)
(** apply_suggestion, 1325-1357: undo what was applied, then replace the text from the offset of the suggestion on. The undo group is undone as a whole. *)
Record sug := mkG { g_off : nat; g_text : list N }.
Record buf := mkB { b_text : list N; b_undo : option (list N) (* the text before the group, if m_applied *) }.
Definition apply_suggestion (l : list sug) (i : Z) (b : buf) : buf :=
  let b := match b_undo b with Some t => mkB t None | None => b end in
  if (0 <=? i) && (i <? Z.of_nat (length l)) then
    match nth_error l (Z.to_nat i) with
    | Some g => mkB (firstn (g_off g) (b_text b) ++ g_text g) (Some (b_text b))
    | None => b
    end
  else b.

(** ** drawing *)
(** a row of the screen below the header: a suggestion, selected or not, or the tooltip of one, or a row of a list that is no more *)
Inductive cell := Item (i : Z) (selected : bool) | Tip (i : Z) | Old.
Section Draw.
Variable tips : Z -> bool.
(** the screen, m_any_displayed, m_prev_displayed, m_tooltip_displayed *)
Record dr := mkD { scr : list cell; any : list Z; dprev : Z; tip : Z }.
Definition put {A} (l : list A) (n : nat) (x : A) : list A := firstn n l ++ x :: skipn (S n) l.
(** the loop of 928-1014 from row [row] on, with [left] rows to go; [n] is screen_row; gives also whether the last row was drawn *)
Fixpoint rows (index t : Z) (was_tip : Z) (left : nat) (row : Z) (n : nat) (d : dr) (last : bool) : dr * nat * bool :=
  match left with
  | O => (d, n, last)
  | S left' =>
      let i := t + row in
      if (dprev d <? 0) || (i =? index) || (i =? dprev d) || (length (any d) <=? n)%nat || negb (nth n (any d) 0 =? i) then
        let selected := i =? index in
        let d := mkD (put (scr d) n (Item i selected)) (put (any d) n i) (dprev d) (tip d) in
        if selected then
          if tips i then rows index t was_tip left' (row + 1) (S (S n)) (mkD (put (scr d) (S n) (Tip i)) (put (any d) (S n) (-1)) (if was_tip <? 0 then -1 else dprev d) index) true
          else rows index t was_tip left' (row + 1) (S n) (mkD (scr d) (any d) (if 0 <=? was_tip then -1 else dprev d) (tip d)) true
        else rows index t was_tip left' (row + 1) (S n) d true
      else rows index t was_tip left' (row + 1) (S n) d false
  end.
(** 877-1029: [count] rows from [t] on; erasing to the end of the screen leaves out the last row if it was not drawn *)
Definition draw (clear : bool) (index t : Z) (count : nat) (d : dr) : dr :=
  let d := if clear then mkD (scr d) (any d) (-1) (-1) else d in
  let '(d', n, last) := rows index t (tip d) count 0 0 (mkD (scr d) (any d) (dprev d) (-1)) false in
  let erase := clear || ((0 <=? tip d) && (tip d' <? 0)) in
  mkD (if erase then firstn (if last then n else n - 1)%nat (scr d') else scr d') (firstn n (any d')) index (tip d').
End Draw.
