(** Model of moving the selection in the list of clink-select-complete (clink/lib/src/selectcomplete_impl.cpp), with FISH_ARROW_KEYS
    and SHOW_VERT_SCROLLBARS as in bldopts.h.  Numbers are int32 in the code and stay small here.  What is inserted into the
    line and what is printed are not modelled; of the display only which match is in which cell.  [m_widths] is given by its
    columns (column_widths.cpp, see ColsModel). *)
From Verif Require Import Base SmallModel.
Local Open Scope Z_scope.

(** The settings: menu-complete-wraparound, print-completions-horizontally, clink.scroll_offset, match.preview_rows,
    use_vert_scrollbars(). *)
Record cfg := mkCfg { c_wrap : bool; c_horiz : bool; c_offset : Z; c_preview : Z; c_bars : bool }.
(** What update_layout starts from: screen rows and columns, the height of the input line with the longest match (1399),
    m_desc_below, match.max_rows, cols_that_fit (1381), m_widths' columns and padding. *)
Record geom := mkGeom { g_rows : Z; g_screen : Z; g_height : Z; g_desc : bool; g_max : Z; g_fit : Z; g_widths : list Z; g_pad : Z }.
(** m_match_cols, m_match_rows, m_visible_rows and the number of matches *)
Record lay := mkLay { l_geom : geom; l_count : Z; l_cols : Z; l_rows : Z; l_vis : Z }.
Record st := mkSt { s_lay : lay; s_index : Z; s_top : Z; s_disp : Z; s_exp : bool; s_ign : bool; s_prev : nat; s_latch : bool;
                    s_car : bool; s_bar : bool }.

Definition w_lay l s := mkSt l (s_index s) (s_top s) (s_disp s) (s_exp s) (s_ign s) (s_prev s) (s_latch s) (s_car s) (s_bar s).
Definition w_index i s := mkSt (s_lay s) i (s_top s) (s_disp s) (s_exp s) (s_ign s) (s_prev s) (s_latch s) (s_car s) (s_bar s).
(** set_top (2115-2125) *)
Definition set_top t s := mkSt (s_lay s) (s_index s) t (s_disp s) (s_exp s) (s_ign s) (s_prev s) (s_latch s) (s_car s) (s_bar s).
Definition w_disp d s := mkSt (s_lay s) (s_index s) (s_top s) d (s_exp s) (s_ign s) (s_prev s) (s_latch s) (s_car s) (s_bar s).
Definition w_exp x s := mkSt (s_lay s) (s_index s) (s_top s) (s_disp s) x (s_ign s) (s_prev s) (s_latch s) (s_car s) (s_bar s).
Definition w_ign x s := mkSt (s_lay s) (s_index s) (s_top s) (s_disp s) (s_exp s) x (s_prev s) (s_latch s) (s_car s) (s_bar s).
Definition w_prev p s := mkSt (s_lay s) (s_index s) (s_top s) (s_disp s) (s_exp s) (s_ign s) p (s_latch s) (s_car s) (s_bar s).
Definition w_latch x s := mkSt (s_lay s) (s_index s) (s_top s) (s_disp s) (s_exp s) (s_ign s) (s_prev s) x (s_car s) (s_bar s).
Definition w_car x s := mkSt (s_lay s) (s_index s) (s_top s) (s_disp s) (s_exp s) (s_ign s) (s_prev s) (s_latch s) x (s_bar s).
Definition w_bar x s := mkSt (s_lay s) (s_index s) (s_top s) (s_disp s) (s_exp s) (s_ign s) (s_prev s) (s_latch s) (s_car s) x.

(** update_layout (1382-1424) *)
Definition visible_rows (g : geom) (match_rows : Z) : Z :=
  let v := g_rows g - g_height g - Z.min 2 (Z.quot (g_rows g) 10) in
  let v := if g_desc g then v - 2 else v in
  let v := if v <? match_rows then v - 1 else v in
  let v := if (0 <? g_max g) && (Z.max 2 (g_max g) <? v) then Z.max 2 (g_max g) else v in
  if v <? 2 then 0 else v.
Definition layout (g : geom) (count : Z) : lay :=
  let cols := Z.max 1 (g_fit g) in
  let rows := Z.quot (count + (cols - 1)) cols in
  mkLay g count cols rows (visible_rows g rows).
Definition update_layout (g : geom) (count : Z) (s : st) : st := w_car false (w_ign false (w_lay (layout g count) s)).

(** move_selection_lower (146-165); [fuel] bounds the while loop. *)
Fixpoint back_into (fuel : nat) (index major count : Z) : Z :=
  match fuel with
  | O => index
  | S f => if count <=? index then back_into f (index - major) major count else index
  end.
Definition lower (wrap : bool) (index major minor count : Z) : Z :=
  if (index =? 0) && negb wrap then index
  else
    let i := if index =? 0 then index else index - major in
    if (index =? 0) || (i <? 0) then back_into (Z.to_nat minor) (i - 1 + major * minor) major count else i.
(** move_selection_higher (167-189): the index and whether it latches; None: it returns false. *)
Definition higher (wrap : bool) (index major count : Z) (latched : bool) : option (Z * bool) :=
  if latched then None
  else if (count <=? index + major) && (Z.rem (index + 1) major =? 0) then
    if wrap then Some (0, latched) else Some (count - 1, true)
  else
    let i := index + major in
    Some (if count <=? i then Z.rem (i + 1) major else i, latched).

(** get_scroll_offset (2100-2106) *)
Definition scroll_offset (c : cfg) (s : st) : Z :=
  if c_offset c <=? 0 then 0 else Z.min (c_offset c) (Z.max 0 (Z.quot (s_disp s - 1) 2)).
(** get_match_row (2094-2097) *)
Definition match_row (c : cfg) (l : lay) (index : Z) : Z :=
  if c_horiz c then Z.quot index (l_cols l) else Z.rem index (l_rows l).
(** The strides (e.g. 1546-1547) *)
Definition major_stride (c : cfg) (l : lay) : Z := if c_horiz c then l_cols l else 1.
Definition minor_stride (c : cfg) (l : lay) : Z := if c_horiz c then 1 else l_rows l.

(** update_top (1432-1463) *)
Definition update_top (c : cfg) (s : st) : st :=
  let l := s_lay s in
  let y := match_row c l (s_index s) in
  let s1 :=
    if y <? s_top s then set_top y s
    else
      let rows := Z.min (l_rows l) (l_vis l) in
      let top := Z.max 0 (y - (rows - 1)) in
      if s_top s <? top then set_top top s else s in
  if s_exp s1 && negb (s_ign s1) then
    let ofs := scroll_offset c s1 in
    if 0 <? ofs then
      let last_row := Z.max 0 (l_rows l - l_vis l) in
      if Z.max 0 (y - ofs) <? s_top s1 then set_top (Z.max 0 (y - ofs)) s1
      else if s_top s1 <? Z.min last_row (y + ofs - s_disp s1 + 1) then set_top (Z.min last_row (y + ofs - s_disp s1 + 1)) s1
      else s1
    else s1
  else s1.
(** update_display (1466-1545) while there are matches: which rows are shown.  calc_scroll_car_size is not 0 exactly
    if there are more rows than are shown (C47). *)
Definition display (c : cfg) (s : st) : st :=
  let l := s_lay s in
  if l_vis l <=? 0 then s
  else
    let x := if s_exp s then true
             else if (c_preview c <=? 0) || (l_vis l <=? c_preview c + 1) then true
             else if 0 <=? s_index s then c_preview c <=? match_row c l (s_index s)
             else false in
    let more := negb x && (c_preview c + 1 <? l_rows l) in
    let rows := Z.min (l_vis l) (if more then c_preview c else l_rows l) in
    let s1 := update_top c (w_disp rows (w_exp x s)) in
    w_car (c_bars c && (8 <=? g_screen (l_geom l)) && (rows <? l_rows l)) s1.
(** The match in the [col]th cell of the [row]th row shown (1556-1600); None: the cell is empty. *)
Definition cell (c : cfg) (s : st) (row col : Z) : option Z :=
  let i := (s_top s + row) * major_stride c (s_lay s) + col * minor_stride c (s_lay s) in
  if l_count (s_lay s) <=? i then None else Some i.

(** insert_match (1928-2092): if the number of screen lines the line takes changes, the layout is updated (2070-2091);
    nothing but the height of the line is different then. *)
Definition insert_match (h : option Z) (s : st) : st :=
  match h with
  | None => s
  | Some h =>
      let g := l_geom (s_lay s) in
      update_layout (mkGeom (g_rows g) (g_screen g) h (g_desc g) (g_max g) (g_fit g) (g_widths g) (g_pad g)) (l_count (s_lay s)) s
  end.
(** 515-518 *)
Definition navigated (c : cfg) (h : option Z) (s : st) : st := display c (insert_match h s).

(** The keys; [click]: leftclick, doubleclick, drag. *)
Inductive click := left_click | double_click | drag.
Inductive key :=
| k_next | k_prev | k_up | k_down | k_left | k_right | k_wheelleft | k_wheelright | k_pgup | k_pgdn | k_first | k_last
| k_mouse (k : click) (p0 p1 : Z) (can_scroll : bool) (speed : Z)   (* [p1]: the row, from the first row of the list *)
| k_wheelup (n : Z) | k_wheeldown (n : Z)
| k_f1 (g : option geom)                    (* None: nothing to toggle *)
| k_type (count : Z) (g : geom)             (* text, or Backspace: the matches that are left *)
| k_other.
(** The binding's number (111-140) *)
Definition key_id (k : key) : nat :=
  match k with
  | k_next => 60 | k_prev => 61 | k_up => 62 | k_down => 63 | k_left => 64 | k_right => 65 | k_pgup => 66 | k_pgdn => 67
  | k_first => 68 | k_last => 69
  | k_mouse left_click _ _ _ _ => 70 | k_mouse double_click _ _ _ _ => 71 | k_wheelup _ => 72 | k_wheeldown _ => 73
  | k_wheelleft => 74 | k_wheelright => 75 | k_mouse drag _ _ _ _ => 76 | k_f1 _ => 85 | k_type _ _ => 86 | k_other => 84
  end%nat.

Inductive outcome := Go (s : st) | Ended | Undefined.

(** next, prev (510-527) *)
Definition go_next (c : cfg) (s : st) : st :=
  let i := s_index s + 1 in
  w_index (if l_count (s_lay s) <=? i then (if c_wrap c then 0 else l_count (s_lay s) - 1) else i) s.
Definition go_prev (c : cfg) (s : st) : st :=
  let i := s_index s - 1 in
  w_index (if i <? 0 then (if c_wrap c then l_count (s_lay s) - 1 else 0) else i) s.
(** arrow_next (549-557) *)
Definition arrow_next (c : cfg) (h : option Z) (s : st) : outcome :=
  let s := if negb (c_wrap c) && (s_index s =? l_count (s_lay s) - 1) then w_latch true s else s in
  Go (navigated c h (go_next c s)).
Definition arrow_higher (c : cfg) (h : option Z) (major : Z) (s : st) : outcome :=
  match higher (c_wrap c) (s_index s) major (l_count (s_lay s)) (s_latch s) with
  | Some (i, latch) => Go (navigated c h (w_latch latch (w_index i s)))
  | None => Go s
  end.
Definition arrow_lower (c : cfg) (h : option Z) (major minor : Z) (s : st) : outcome :=
  Go (navigated c h (w_index (lower (c_wrap c) (s_index s) major minor (l_count (s_lay s))) s)).

(** Page Up and Page Down (631-697) *)
Definition page_up (c : cfg) (s : st) : st :=
  let l := s_lay s in
  let y := match_row c l (s_index s) in
  let ofs := scroll_offset c s in
  let scroll_rows := Z.min (l_rows l) (l_vis l) - ofs - 1 in
  if y =? 0 then w_index 0 s
  else
    let new_y := Z.max 0 (if y <=? s_top s + ofs then y - scroll_rows else s_top s + ofs) in
    w_index (s_index s + (new_y - y) * major_stride c l) s.
Definition page_down (c : cfg) (s : st) : st :=
  let l := s_lay s in
  let y := match_row c l (s_index s) in
  let rows := Z.min (l_rows l) (l_vis l) in
  let ofs := scroll_offset c s in
  let scroll_rows := rows - ofs - 1 in
  if y =? l_rows l - 1 then w_index (l_count l - 1) s
  else
    let stride := major_stride c l in
    let new_y := Z.min (l_rows l - 1) (if s_top s + scroll_rows <=? y then y + scroll_rows else s_top s + scroll_rows) in
    let new_index := s_index s + (new_y - y) * stride in
    let '(new_index, new_top) :=
      if l_count l <=? new_index then
        if c_horiz c then (if y + 1 <? new_y then new_index - stride else l_count l - 1, l_rows l - rows)
        else
          let i := l_count l - 1 in
          (i, if s_top s + rows <=? match_row c l i then Z.min (match_row c l i) (l_rows l - rows) else s_top s)
      else (new_index, s_top s) in
    set_top (Z.max 0 new_top) (w_index new_index s).
(** End (702-714) *)
Definition go_last (c : cfg) (s : st) : st :=
  let l := s_lay s in
  let i := l_count l - 1 in
  let rows := Z.min (l_rows l) (l_vis l) in
  let row := match_row c l i in
  let row := if row + 1 <? l_rows l then row + 1 else row in
  set_top (Z.max 0 (row - (rows - 1))) (w_index i s).

(** The column the mouse is in (755-780) *)
Fixpoint column_at (widths : list Z) (pad screen : Z) (scrolling : bool) (p0 x1 i : Z) : option Z :=
  match widths with
  | [] => None
  | w :: r =>
      let cw := match r with [] => w + screen | _ => if scrolling then w + pad else w end in
      if (x1 <=? p0) && (p0 <? x1 + cw) then Some i else column_at r pad screen scrolling p0 (x1 + w + pad) (i + 1)
  end.
(** do_mouse_position (750-781); [revert] is revert_top *)
Definition mouse_position (c : cfg) (h : option Z) (k : click) (p0 row revert : Z) (scrolling : bool) (s : st) : outcome :=
  let l := s_lay s in
  match column_at (g_widths (l_geom l)) (g_pad (l_geom l)) (g_screen (l_geom l)) scrolling p0 0 0 with
  | None => Go s
  | Some i =>
      let index := major_stride c l * row + i * minor_stride c l in
      let s1 := w_ign true (w_index index s) in
      let s1 := if l_count l <=? index
                then w_index (l_count l - 1) (set_top (Z.max revert (match_row c l (l_count l) - (s_disp s - 1))) s1)
                else s1 in
      let s2 := navigated c h s1 in
      match k with double_click => Ended | _ => Go s2 end
  end.
(** 716-823 *)
Definition mouse (c : cfg) (h : option Z) (k : click) (p0 p1 : Z) (can_scroll : bool) (speed : Z) (s : st) : outcome :=
  let l := s_lay s in
  let rows := s_disp s in
  let s := match k with
           | drag => s
           | _ => if s_car s then w_bar ((p0 =? g_screen (l_geom l) - 2) && (0 <=? p1) && (p1 <? rows)) s else s
           end in
  if s_bar s then
    match hittest (Z.min (Z.max p1 0) (rows - 1)) rows (l_rows l) with
    | None => Undefined
    | Some i =>
        let index := i * major_stride c l in
        Go (navigated c h (set_top (Z.min (Z.max (index - Z.quot rows 2) 0) (l_rows l - rows)) (w_index index s)))
    end
  else if (0 <=? p1) && (p1 <? rows) then mouse_position c h k p0 (p1 + s_top s) (s_top s) false s
  else if p1 <? 0 then
    match k with
    | drag =>
        if can_scroll && (0 <? s_top s) then
          let t := Z.max 0 (s_top s - speed) in
          mouse_position c h k p0 t (s_top s) true (set_top t s)
        else Go s
    | _ => Ended
    end
  else if negb (s_exp s) then Go (display c (w_exp true s))
  else
    match k with
    | drag =>
        if can_scroll && (s_top s + rows <? l_rows l) then
          mouse_position c h k p0 (s_top s + rows) (s_top s) true (set_top (Z.min (l_rows l - rows) (s_top s + speed)) s)
        else Go s
    | _ => Go s
    end.

(** The wheel (825-853) *)
Definition wheel (c : cfg) (up : bool) (n : Z) (s : st) : st :=
  let l := s_lay s in
  let row := match_row c l (s_index s) in
  let i := if up then s_index s - Z.min row n * major_stride c l
           else s_index s + Z.min (l_rows l - 1 - row) n * major_stride c l in
  let s1 :=
    if l_count l <=? i then
      let s1 := w_index (l_count l - 1) s in
      let rows := Z.min (l_rows l) (l_vis l) in
      if s_top s + rows - 1 =? match_row c l (l_count l - 1)
      then set_top (Z.min (Z.max 0 (l_rows l - rows)) (s_top s + 1)) s1 else s1
    else w_index i s in
  if (s_index s1 =? s_index s) && (s_top s1 =? s_top s) then s1 else display c s1.

(** on_input (456-987); [h]: the height of the line in case the insertion changes it. *)
Definition on_input (c : cfg) (k : key) (h : option Z) (s : st) : outcome :=
  let s := if Nat.eqb (s_prev s) (key_id k) then s
           else w_prev (key_id k) (match k with k_down | k_right => s | _ => w_latch false s end) in
  let l := s_lay s in
  if l_count l =? 0 then Ended
  else if l_vis l <=? 0 then Ended
  else
    let s := w_ign false s in
    match k with
    | k_next => Go (navigated c h (go_next c s))
    | k_prev => Go (navigated c h (go_prev c s))
    | k_up => if c_horiz c then arrow_lower c h (l_cols l) (l_rows l) s else Go (navigated c h (go_prev c s))
    | k_down => if c_horiz c then arrow_higher c h (l_cols l) s else arrow_next c h s
    | k_left | k_wheelleft => if c_horiz c then Go (navigated c h (go_prev c s)) else arrow_lower c h (l_rows l) (l_cols l) s
    | k_right | k_wheelright => if c_horiz c then arrow_next c h s else arrow_higher c h (l_rows l) s
    | k_pgup => Go (navigated c h (page_up c s))
    | k_pgdn => Go (navigated c h (page_down c s))
    | k_first => Go (navigated c h (w_index 0 s))
    | k_last => Go (navigated c h (go_last c s))
    | k_mouse m p0 p1 can_scroll speed => mouse c h m p0 p1 can_scroll speed s
    | k_wheelup n => Go (wheel c true n s)
    | k_wheeldown n => Go (wheel c false n s)
    | k_f1 None => Go s
    | k_f1 (Some g) =>
        let delta := match_row c l (s_index s) - s_top s in
        let s1 := update_layout g (l_count l) s in
        let top := Z.max 0 (match_row c (s_lay s1) (s_index s) - delta) in
        Go (display c (set_top (Z.min top (Z.max 0 (l_rows (s_lay s1) - l_vis (s_lay s1)))) s1))
    | k_type n g =>
        if n <=? 0 then Ended
        else Go (insert_match h (display c (update_layout g n (w_ign false (w_index 0 (set_top 0 s))))))
    | k_other => Go s
    end.
(** on_terminal_resize (1006-1017) *)
Definition on_resize (c : cfg) (g : geom) (s : st) : st := display c (update_layout g (l_count (s_lay s)) s).
(** activate (252-350): the list is shown for the first time.  [expanded]: the user was asked (m_can_prompt), or the list
    is activated again. *)
Definition activate (c : cfg) (g : geom) (count : Z) (expanded : bool) (h : option Z) (s : st) : option st :=
  let s1 := update_layout g count (w_exp expanded s) in
  if (count <=? 1) || (l_vis (s_lay s1) <=? 0) then None
  else Some (navigated c h (w_ign false (w_index 0 (set_top 0 s1)))).
