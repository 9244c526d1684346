(** Model of the popup lists (clink/lib/src/textlist_impl.cpp): moving the selection, finding, filtering, deleting and choosing.
    Numbers are int32 in the code and stay small here, except where unsigned arithmetic wraps.  What is printed is not
    modelled, but which rows are read to print them is: a read outside of the items makes the outcome [Undefined].  Assertions
    are off.  The number of rows is constant while the list is shown (a resize cancels it, 1381-1388). *)
From Verif Require Import Base SmallModel.
Local Open Scope Z_scope.

(** menu-complete-wraparound, clink.scroll_offset, clink.popup_delete_direction = up, m_reverse, m_win_history, m_history_mode,
    textlist_mode::directories, m_del_callback, use_vert_scrollbars(), m_visible_rows *)
Record cfg := mkCfg { c_wrap : bool; c_offset : Z; c_up : bool; c_reverse : bool; c_win : bool; c_hist : bool; c_dirs : bool;
                      c_callback : bool; c_bars : bool; c_vis : Z }.
(** An item's text (m_items) and its columns (m_columns) *)
Record item := mkItem { i_text : bytes; i_cols : list bytes }.
(** m_entries, m_items with m_columns, the indices in m_infos, the list the entries come from (Readline's history, the
    directory history or what the callback deletes from), m_original_count, m_count, m_filter, m_filter_string,
    m_filtered_items, m_filter_saved_index, m_filter_saved_top, m_index, m_top, m_ignore_scroll_offset, m_needle,
    m_needle_not_found, m_needle_is_number, m_input_clears_needle, the pending find (direction, from_begin,
    advance_before), whether m_override_title is not empty, m_has_override_title, m_scroll_bar_clicked, the clipboard.
    m_vert_scroll_car is always calculated from the present count. *)
Record st := mkSt {
  t_entries : list bytes; t_items : list item; t_infos : option (list Z); t_ext : list bytes; t_ocount : Z; t_count : Z;
  t_filt : bool; t_fstr : bytes; t_fitems : list Z; t_sidx : Z; t_stop : Z; t_index : Z;
  t_top : Z; t_ign : bool; t_needle : bytes; t_nf : bool; t_isnum : bool; t_clr : bool;
  t_pend : option (Z * bool * bool); t_title : bool; t_shown_title : bool; t_bar : bool; t_clip : option bytes }.
Definition w_entries (x : list bytes) (s : st) := mkSt x (t_items s) (t_infos s) (t_ext s) (t_ocount s) (t_count s) (t_filt s) (t_fstr s) (t_fitems s) (t_sidx s) (t_stop s) (t_index s) (t_top s) (t_ign s) (t_needle s) (t_nf s) (t_isnum s) (t_clr s) (t_pend s) (t_title s) (t_shown_title s) (t_bar s) (t_clip s).
Definition w_items (x : list item) (s : st) := mkSt (t_entries s) x (t_infos s) (t_ext s) (t_ocount s) (t_count s) (t_filt s) (t_fstr s) (t_fitems s) (t_sidx s) (t_stop s) (t_index s) (t_top s) (t_ign s) (t_needle s) (t_nf s) (t_isnum s) (t_clr s) (t_pend s) (t_title s) (t_shown_title s) (t_bar s) (t_clip s).
Definition w_infos (x : option (list Z)) (s : st) := mkSt (t_entries s) (t_items s) x (t_ext s) (t_ocount s) (t_count s) (t_filt s) (t_fstr s) (t_fitems s) (t_sidx s) (t_stop s) (t_index s) (t_top s) (t_ign s) (t_needle s) (t_nf s) (t_isnum s) (t_clr s) (t_pend s) (t_title s) (t_shown_title s) (t_bar s) (t_clip s).
Definition w_ext (x : list bytes) (s : st) := mkSt (t_entries s) (t_items s) (t_infos s) x (t_ocount s) (t_count s) (t_filt s) (t_fstr s) (t_fitems s) (t_sidx s) (t_stop s) (t_index s) (t_top s) (t_ign s) (t_needle s) (t_nf s) (t_isnum s) (t_clr s) (t_pend s) (t_title s) (t_shown_title s) (t_bar s) (t_clip s).
Definition w_ocount (x : Z) (s : st) := mkSt (t_entries s) (t_items s) (t_infos s) (t_ext s) x (t_count s) (t_filt s) (t_fstr s) (t_fitems s) (t_sidx s) (t_stop s) (t_index s) (t_top s) (t_ign s) (t_needle s) (t_nf s) (t_isnum s) (t_clr s) (t_pend s) (t_title s) (t_shown_title s) (t_bar s) (t_clip s).
Definition w_count (x : Z) (s : st) := mkSt (t_entries s) (t_items s) (t_infos s) (t_ext s) (t_ocount s) x (t_filt s) (t_fstr s) (t_fitems s) (t_sidx s) (t_stop s) (t_index s) (t_top s) (t_ign s) (t_needle s) (t_nf s) (t_isnum s) (t_clr s) (t_pend s) (t_title s) (t_shown_title s) (t_bar s) (t_clip s).
Definition w_filt (x : bool) (s : st) := mkSt (t_entries s) (t_items s) (t_infos s) (t_ext s) (t_ocount s) (t_count s) x (t_fstr s) (t_fitems s) (t_sidx s) (t_stop s) (t_index s) (t_top s) (t_ign s) (t_needle s) (t_nf s) (t_isnum s) (t_clr s) (t_pend s) (t_title s) (t_shown_title s) (t_bar s) (t_clip s).
Definition w_fstr (x : bytes) (s : st) := mkSt (t_entries s) (t_items s) (t_infos s) (t_ext s) (t_ocount s) (t_count s) (t_filt s) x (t_fitems s) (t_sidx s) (t_stop s) (t_index s) (t_top s) (t_ign s) (t_needle s) (t_nf s) (t_isnum s) (t_clr s) (t_pend s) (t_title s) (t_shown_title s) (t_bar s) (t_clip s).
Definition w_fitems (x : list Z) (s : st) := mkSt (t_entries s) (t_items s) (t_infos s) (t_ext s) (t_ocount s) (t_count s) (t_filt s) (t_fstr s) x (t_sidx s) (t_stop s) (t_index s) (t_top s) (t_ign s) (t_needle s) (t_nf s) (t_isnum s) (t_clr s) (t_pend s) (t_title s) (t_shown_title s) (t_bar s) (t_clip s).
Definition w_sidx (x : Z) (s : st) := mkSt (t_entries s) (t_items s) (t_infos s) (t_ext s) (t_ocount s) (t_count s) (t_filt s) (t_fstr s) (t_fitems s) x (t_stop s) (t_index s) (t_top s) (t_ign s) (t_needle s) (t_nf s) (t_isnum s) (t_clr s) (t_pend s) (t_title s) (t_shown_title s) (t_bar s) (t_clip s).
Definition w_stop (x : Z) (s : st) := mkSt (t_entries s) (t_items s) (t_infos s) (t_ext s) (t_ocount s) (t_count s) (t_filt s) (t_fstr s) (t_fitems s) (t_sidx s) x (t_index s) (t_top s) (t_ign s) (t_needle s) (t_nf s) (t_isnum s) (t_clr s) (t_pend s) (t_title s) (t_shown_title s) (t_bar s) (t_clip s).
Definition w_index (x : Z) (s : st) := mkSt (t_entries s) (t_items s) (t_infos s) (t_ext s) (t_ocount s) (t_count s) (t_filt s) (t_fstr s) (t_fitems s) (t_sidx s) (t_stop s) x (t_top s) (t_ign s) (t_needle s) (t_nf s) (t_isnum s) (t_clr s) (t_pend s) (t_title s) (t_shown_title s) (t_bar s) (t_clip s).
Definition w_top (x : Z) (s : st) := mkSt (t_entries s) (t_items s) (t_infos s) (t_ext s) (t_ocount s) (t_count s) (t_filt s) (t_fstr s) (t_fitems s) (t_sidx s) (t_stop s) (t_index s) x (t_ign s) (t_needle s) (t_nf s) (t_isnum s) (t_clr s) (t_pend s) (t_title s) (t_shown_title s) (t_bar s) (t_clip s).
Definition w_ign (x : bool) (s : st) := mkSt (t_entries s) (t_items s) (t_infos s) (t_ext s) (t_ocount s) (t_count s) (t_filt s) (t_fstr s) (t_fitems s) (t_sidx s) (t_stop s) (t_index s) (t_top s) x (t_needle s) (t_nf s) (t_isnum s) (t_clr s) (t_pend s) (t_title s) (t_shown_title s) (t_bar s) (t_clip s).
Definition w_needle (x : bytes) (s : st) := mkSt (t_entries s) (t_items s) (t_infos s) (t_ext s) (t_ocount s) (t_count s) (t_filt s) (t_fstr s) (t_fitems s) (t_sidx s) (t_stop s) (t_index s) (t_top s) (t_ign s) x (t_nf s) (t_isnum s) (t_clr s) (t_pend s) (t_title s) (t_shown_title s) (t_bar s) (t_clip s).
Definition w_nf (x : bool) (s : st) := mkSt (t_entries s) (t_items s) (t_infos s) (t_ext s) (t_ocount s) (t_count s) (t_filt s) (t_fstr s) (t_fitems s) (t_sidx s) (t_stop s) (t_index s) (t_top s) (t_ign s) (t_needle s) x (t_isnum s) (t_clr s) (t_pend s) (t_title s) (t_shown_title s) (t_bar s) (t_clip s).
Definition w_isnum (x : bool) (s : st) := mkSt (t_entries s) (t_items s) (t_infos s) (t_ext s) (t_ocount s) (t_count s) (t_filt s) (t_fstr s) (t_fitems s) (t_sidx s) (t_stop s) (t_index s) (t_top s) (t_ign s) (t_needle s) (t_nf s) x (t_clr s) (t_pend s) (t_title s) (t_shown_title s) (t_bar s) (t_clip s).
Definition w_clr (x : bool) (s : st) := mkSt (t_entries s) (t_items s) (t_infos s) (t_ext s) (t_ocount s) (t_count s) (t_filt s) (t_fstr s) (t_fitems s) (t_sidx s) (t_stop s) (t_index s) (t_top s) (t_ign s) (t_needle s) (t_nf s) (t_isnum s) x (t_pend s) (t_title s) (t_shown_title s) (t_bar s) (t_clip s).
Definition w_pend (x : option (Z * bool * bool)) (s : st) := mkSt (t_entries s) (t_items s) (t_infos s) (t_ext s) (t_ocount s) (t_count s) (t_filt s) (t_fstr s) (t_fitems s) (t_sidx s) (t_stop s) (t_index s) (t_top s) (t_ign s) (t_needle s) (t_nf s) (t_isnum s) (t_clr s) x (t_title s) (t_shown_title s) (t_bar s) (t_clip s).
Definition w_title (x : bool) (s : st) := mkSt (t_entries s) (t_items s) (t_infos s) (t_ext s) (t_ocount s) (t_count s) (t_filt s) (t_fstr s) (t_fitems s) (t_sidx s) (t_stop s) (t_index s) (t_top s) (t_ign s) (t_needle s) (t_nf s) (t_isnum s) (t_clr s) (t_pend s) x (t_shown_title s) (t_bar s) (t_clip s).
Definition w_shown_title (x : bool) (s : st) := mkSt (t_entries s) (t_items s) (t_infos s) (t_ext s) (t_ocount s) (t_count s) (t_filt s) (t_fstr s) (t_fitems s) (t_sidx s) (t_stop s) (t_index s) (t_top s) (t_ign s) (t_needle s) (t_nf s) (t_isnum s) (t_clr s) (t_pend s) (t_title s) x (t_bar s) (t_clip s).
Definition w_bar (x : bool) (s : st) := mkSt (t_entries s) (t_items s) (t_infos s) (t_ext s) (t_ocount s) (t_count s) (t_filt s) (t_fstr s) (t_fitems s) (t_sidx s) (t_stop s) (t_index s) (t_top s) (t_ign s) (t_needle s) (t_nf s) (t_isnum s) (t_clr s) (t_pend s) (t_title s) (t_shown_title s) x (t_clip s).
Definition w_clip (x : option bytes) (s : st) := mkSt (t_entries s) (t_items s) (t_infos s) (t_ext s) (t_ocount s) (t_count s) (t_filt s) (t_fstr s) (t_fitems s) (t_sidx s) (t_stop s) (t_index s) (t_top s) (t_ign s) (t_needle s) (t_nf s) (t_isnum s) (t_clr s) (t_pend s) (t_title s) (t_shown_title s) (t_bar s) x.

Definition is_nil {A} (l : list A) : bool := match l with [] => true | _ => false end.
(** v[i] *)
Definition zth {A} (l : list A) (i : Z) : option A := if i <? 0 then None else nth_error l (Z.to_nat i).
Fixpoint zseq (i : Z) (n : nat) : list Z := match n with O => [] | S k => i :: zseq (i + 1) k end.

(** get_scroll_offset (1984-1990) *)
Definition scroll_offset (c : cfg) : Z := if c_offset c <=? 0 then 0 else Z.min (c_offset c) (Z.max 0 (Z.quot (c_vis c - 1) 2)).
(** set_top (1993-2003) *)
Definition set_top (t : Z) (ignore : bool) (s : st) : st := if t =? t_top s then s else w_ign ignore (w_top t s).
Definition rows (c : cfg) (s : st) : Z := Z.min (t_count s) (c_vis c).
(** update_top (1472-1505) *)
Definition update_top (c : cfg) (s : st) : st :=
  let y := t_index s in
  let s1 :=
    if y <? t_top s then set_top y false s
    else
      let top := Z.max 0 (y - Z.max (rows c s - 1) 0) in
      if t_top s <? top then set_top top false s else s in
  if negb (t_ign s1) then
    let ofs := scroll_offset c in
    if 0 <? ofs then
      let last_row := Z.max 0 (t_count s - rows c s) in
      if Z.max 0 (y - ofs) <? t_top s1 then set_top (Z.max 0 (y - ofs)) false s1
      else if t_top s1 <? Z.min last_row (y + ofs - rows c s + 1)
      then set_top (Z.max 0 (Z.min last_row (y + ofs - rows c s + 1))) false s1
      else s1
    else s1
  else s1.

(** get_original_index (2117-2122), get_item_text and get_col_text (2125-2138) *)
Definition original (s : st) (i : Z) : option Z := if is_nil (t_fstr s) then Some i else zth (t_fitems s) i.
Definition item_at (s : st) (i : Z) : option item := match original s i with Some j => zth (t_items s) j | None => None end.
(** get_item_info (2141-2147) *)
Definition info_at (s : st) (infos : list Z) (i : Z) : option Z :=
  match original s i with Some j => zth infos j | None => None end.

(** update_display (1577-1913) of the active list.  The rows read: those from the first on to find the longest (1701-1707) and
    those printed (1745-1749).  Which are printed again depends on what has changed; here it is all of them. *)
Definition rows_read (c : cfg) (s : st) : list Z :=
  zseq (t_top s) (Z.to_nat (Z.max (rows c s) (Z.min (c_vis c) (t_count s - t_top s)))).
Definition display (c : cfg) (s : st) : option st :=
  let active := negb (t_ocount s =? 0) && negb (is_nil (t_fstr s)) in
  if ((0 <? c_vis c) || active) && ((0 <? t_count s) || active) then
    let s1 := w_shown_title (t_title s) (update_top c s) in
    if forallb (fun i => match item_at s1 i with Some _ => true | None => false end) (rows_read c s1) then Some s1 else None
  else Some s.

Section Find.
Variable hit : bytes -> bytes -> bool.    (* strstr_compare (284-299) on a text that is not empty *)
Variable begins : bytes -> bytes -> bool. (* str_compare is not 0: the first characters are the same *)

Definition matches (needle : bytes) (it : item) : bool := hit needle (i_text it) || existsb (hit needle) (i_cols it).
(** advance_index (833-846) *)
Definition advance (i direction max_count : Z) : Z :=
  let i := i + direction in
  if direction <? 0 then (if i <? 0 then max_count - 1 else i) else (if max_count <=? i then 0 else i).
(** The loop in do_find (1943-1978).  None: an item that does not exist is read; Some None: not found. *)
Fixpoint find_loop (fuel : nat) (c : cfg) (s : st) (direction i original : Z) : option (option Z) :=
  match fuel with
  | O => None
  | S k =>
      match item_at s i with
      | None => None
      | Some it =>
          if (if c_win c then begins (t_needle s) (i_text it) else matches (t_needle s) it) then Some (Some i)
          else
            let i' := advance i direction (t_count s) in
            if i' =? original then Some None else find_loop k c s direction i' original
      end
  end.

(** clear_filter (2150-2164) *)
Definition clear_filter (s : st) : st :=
  if is_nil (t_fstr s) then s
  else set_top (t_stop s) false (w_ign false (w_index (t_sidx s) (w_fitems [] (w_fstr [] (w_count (t_ocount s) s))))).
(** The positions of the items that match (2227-2245) *)
Fixpoint positions (needle : bytes) (l : list item) (i : Z) : list Z :=
  match l with [] => [] | it :: r => if matches needle it then i :: positions needle r (i + 1) else positions needle r (i + 1) end.
(** Those of the positions [js] that match (2204-2224) *)
Fixpoint refine (needle : bytes) (l : list item) (js : list Z) : option (list Z) :=
  match js with
  | [] => Some []
  | j :: r =>
      match zth l j, refine needle l r with
      | Some it, Some r' => Some (if matches needle it then j :: r' else r')
      | _, _ => None
      end
  end.
(** filter_items (2167-2276); [busy]: more input is there and interrupts it. *)
Definition filter_items (c : cfg) (busy : bool) (s : st) : option (st * bool) :=
  if eqb_bytes (t_fstr s) (t_needle s) then Some (s, false)
  else if is_nil (t_needle s) then Some (clear_filter s, true)
  else
    let further := negb (is_nil (t_fstr s)) && prefixb (t_fstr s) (t_needle s) in
    if busy && negb (if further then is_nil (t_fitems s) else is_nil (t_items s)) then Some (s, false)
    else
      match (if further then refine (t_needle s) (t_items s) (t_fitems s) else Some (positions (t_needle s) (t_items s) 0)) with
      | None => None
      | Some js =>
          let n := Z.of_nat (length js) in
          let s1 := w_count n (w_fitems js s) in
          let s2 := if is_nil (t_fstr s) then w_stop (t_top s) (w_sidx (t_index s) s1) else s1 in
          let s3 := w_index (if c_reverse c then Z.max 0 (n - 1) else 0) (w_fstr (t_needle s) s2) in
          Some (update_top c (set_top 0 false s3), true)
      end.
(** m_top for a selection that is not shown (e.g. 1961-1962) *)
Definition center (c : cfg) (s : st) : st :=
  if (t_index s <? t_top s) || (t_top s + c_vis c <=? t_index s)
  then w_top (Z.max 0 (Z.min (t_index s - Z.quot (c_vis c) 2) (t_count s - c_vis c))) s else s.
(** do_find (1915-1982): and whether to display *)
Definition do_find (c : cfg) (busy : bool) (direction : Z) (from_begin advance_before : bool) (s : st) : option (st * bool) :=
  if t_nf s then Some (s, false)
  else if t_filt s && negb (c_win c) then filter_items c busy s
  else
    let direction := if c_reverse c then 0 - direction else direction in
    let i := if from_begin then (if c_reverse c then t_count s - 1 else 0) else t_index s in
    let i := if advance_before then advance i direction (t_count s) else i in
    match find_loop (S (Z.to_nat (t_count s))) c s direction i i with
    | None => None
    | Some (Some i) => Some (center c (w_index i s), true)
    | Some None => Some (if negb (t_filt s) && negb (c_win c) then w_nf true s else s, false)
    end.

Inductive click := left_click | double_click | drag.
(** The keys.  Mouse positions are taken from the first row of the list; [in_bar]: in the column of the scroll bar, [inside]:
    between the borders.  [moved]: the horizontal offset changes.  [point]: the needle's length without its last
    character.  [ok]: what host_remove_dir_history or the callback returns. *)
Inductive key :=
| k_up | k_down | k_home | k_end | k_pgup | k_pgdn | k_findnext | k_findprev | k_copy | k_delete (ok : bool)
| k_escape | k_enter | k_insert
| k_mouse (k : click) (in_bar inside : bool) (row : Z) (can_scroll : bool) (speed : Z)
| k_wheelup (n : Z) | k_wheeldown (n : Z)
| k_arrow (moved : bool)                    (* Left, Right *)
| k_horz (moved : bool)                     (* Ctrl with Left, Right, Home, End *)
| k_togglefilter | k_help
| k_backspace (point : nat)
| k_text (keys : bytes).
(** [queued]: optimize-typeahead is on and there is more input; [busy]: see filter_items. *)
Record env := mkEnv { e_queued : bool; e_busy : bool; e_invalid : bytes -> bool (* any_invalid_utf8 (118-127) *) }.

(** What the list returns (cancel, 1408-1424) *)
Inductive result := Cancelled | Chosen (used : bool) (entry : Z) (text : bytes) | Nothing (used : bool).
Inductive outcome := Go (s : st) | Ended (r : result) (s : st) | Undefined.

Definition choose (used : bool) (s : st) : outcome :=
  if (0 <=? t_index s) && (t_index s <? t_count s) then
    match original s (t_index s) with
    | None => Undefined
    | Some j => match zth (t_entries s) j with Some t => Ended (Chosen used j t) s | None => Undefined end
    end
  else Ended (Nothing used) s.
(** 1354-1358 *)
Definition finish (c : cfg) (clears : bool) (r : option st) : outcome :=
  match r with None => Undefined | Some s => Go (if clears && negb (c_win c) then w_clr true s else s) end.
Definition then_display (c : cfg) (r : option (st * bool)) (need : bool) : option st :=
  match r with None => None | Some (s, d) => if d || need then display c s else Some s end.
(** navigated (879-890) *)
Definition navigated (c : cfg) (s : st) : outcome :=
  let s := if t_isnum s then w_title false (w_clr false (w_isnum false (w_nf false (w_needle [] s)))) else s in
  finish c true (display c (w_index (Z.max 0 (t_index s)) s)).

(** Page Up, Page Down (905-941) *)
Definition page_up (c : cfg) (s : st) : outcome :=
  let y := t_index s in
  let ofs := scroll_offset c in
  let scroll_rows := rows c s - ofs in
  if 0 <? y then navigated c (w_index (Z.max 0 (if y <=? t_top s + ofs then y - scroll_rows else t_top s + ofs)) s)
  else finish c true (Some s).
Definition page_down (c : cfg) (s : st) : outcome :=
  let y := t_index s in
  let scroll_rows := rows c s - scroll_offset c in
  if y <? t_count s - 1 then
    let bottom_y := t_top s + scroll_rows - 1 in
    let new_y := Z.min (t_count s - 1) (if y =? bottom_y then y + scroll_rows else bottom_y) in
    let s1 := w_index new_y s in
    navigated c (if t_count s - 1 <? new_y then w_index (t_count s - 1) (set_top (Z.max 0 (t_count s - c_vis c)) false s1) else s1)
  else finish c true (Some s).

(** memmove of the elements behind the [i]th of [n] down by one; the array keeps its length. *)
Definition move_down {A} (n i : nat) (l : list A) : list A := firstn i l ++ firstn (n - 1 - i) (skipn (S i) l) ++ skipn (n - 1) l.
Definition remove_at {A} (i : nat) (l : list A) : list A := firstn i l ++ skipn (S i) l.
(** for (i = hi; i-- > lo;) v[i]-- *)
Fixpoint decrement (lo hi i : nat) (l : list Z) : list Z :=
  match l with
  | [] => []
  | x :: r => (if Nat.leb lo i && Nat.ltb i hi then x - 1 else x) :: decrement lo hi (S i) r
  end.
(** Deleting the [o]th entry, which is the [external]th where it comes from (966-1015) *)
Definition erase (o external : Z) (s : st) : st :=
  let n := Z.to_nat (t_ocount s) in
  let i := Z.to_nat o in
  let s1 := w_items (remove_at i (t_items s)) (w_entries (move_down n i (t_entries s))
              (if external <? 0 then s else w_ext (remove_at (Z.to_nat external) (t_ext s)) s)) in
  let s2 := match t_infos s with
            | Some l => w_infos (Some (decrement i (n - 1) 0 (move_down n i l))) s1
            | None => s1
            end in
  let s3 := if is_nil (t_fitems s) then s2
            else w_fitems (decrement (Z.to_nat (t_index s)) (Z.to_nat (t_count s - 1)) 0
                             (remove_at (Z.to_nat (t_index s)) (t_fitems s))) s2 in
  w_ocount (t_ocount s - 1) (w_count (t_count s - 1) s3).
(** 1022-1032 *)
Definition move_index (c : cfg) (s : st) : st :=
  if c_up c then (if 0 <? t_index s then w_index (t_index s - 1) s else s)
  else (if t_count s <=? t_index s then w_index (t_count s - 1) s else s).
(** 1040-1053 *)
Definition keep_window (c : cfg) (s : st) : st :=
  let delta := t_index s - t_top s in
  let delta := if c_vis c - 1 <=? delta then c_vis c - 2 else delta in
  let delta := if delta <=? 0 then 1 else delta in
  let delta := if c_vis c <=? delta then 0 else delta in
  set_top (Z.min (Z.max 0 (t_index s - delta)) (Z.max 0 (t_count s - c_vis c))) false s.
(** Delete (959-1059) *)
Definition delete (c : cfg) (ok : bool) (s : st) : outcome :=
  if (t_index s <? 0) || (t_count s <=? t_index s) then finish c true (Some s)
  else
    match original s (t_index s) with
    | None => Undefined
    | Some o =>
        match (match t_infos s with Some l => zth l o | None => Some o end) with
        | None => Undefined
        | Some external =>
            if negb (c_hist c) && negb ((c_dirs c || c_callback c) && ok) then finish c true (Some s)
            else
              let s1 := erase o external s in
              if t_ocount s1 =? 0 then Ended Cancelled s1
              else finish c true (display c (keep_window c (w_ign false (move_index c s1))))
        end
    end.

(** The mouse (1077-1160) *)
Definition mouse (c : cfg) (k : click) (in_bar inside : bool) (row : Z) (can_scroll : bool) (speed : Z) (s : st) : outcome :=
  let r := rows c s in
  let s := match k with
           | drag => s
           | _ => if c_bars c && (0 <? c_vis c) && (c_vis c <? t_count s)
                  then w_bar (in_bar && (0 <=? row) && (row <? r)) s else s
           end in
  if t_bar s then
    match hittest (Z.min (Z.max row 0) (r - 1)) r (t_count s) with
    | None => Undefined
    | Some i => navigated c (set_top (Z.min (Z.max (i - Z.quot (r - 1) 2) 0) (t_count s - r)) false (w_index i s))
    end
  else if match k with drag => false | _ => (row <? -1) || (r + 1 <=? row) end then Ended Cancelled s
  else if match k with drag => false | _ => negb inside end then finish c true (Some s)
  else if (0 <=? row) && (row <? r) then
    let s1 := w_ign true (w_index (row + t_top s) s) in
    match k with
    | double_click => match display c s1 with None => Undefined | Some s2 => choose true s2 end
    | _ => navigated c s1
    end
  else
    match k with
    | drag =>
        if negb can_scroll then finish c true (Some s)
        else if row <? 0 then
          if 0 <? t_top s then
            let s1 := set_top (Z.max 0 (t_top s - speed)) true s in navigated c (w_index (t_top s1) s1)
          else finish c true (Some s)
        else if t_top s + r <? t_count s then
          let s1 := set_top (Z.min (t_count s - r) (t_top s + speed)) true s in navigated c (w_index (t_top s1 + r - 1) s1)
        else finish c true (Some s)
    | _ => finish c true (Some s)
    end.

(** The wheel (1162-1175): min<uint32> *)
Definition u32 (x : Z) : Z := x mod 4294967296.
Definition wheel (c : cfg) (up : bool) (n : Z) (s : st) : outcome :=
  let i := if up then t_index s - Z.min (u32 (t_index s)) n else t_index s + Z.min (u32 (t_count s - 1 - t_index s)) n in
  navigated c (w_ign false (w_index i s)).

(** Digits typed in the list of F7 (1309-1343): the first entry the number of which begins with them *)
Fixpoint lookup (fuel : nat) (s : st) (l : list Z) (digits : bytes) (i : Z) : option Z :=
  match fuel with
  | O => Some i
  | S k =>
      match info_at s l i with
      | None => None
      | Some x => if prefixb digits (dec (Z.to_N (x + 1))) then Some i else lookup k s l digits (i + 1)
      end
  end.
Definition enter_number (c : cfg) (s : st) : option st :=
  let s := w_title true s in
  let n := undec 0 (t_needle s) in
  match (match t_infos s with Some l => lookup (Z.to_nat (t_count s)) s l (dec n) 0 | None => Some (Z.of_N n - 1) end) with
  | None => None
  | Some i => display c (if (0 <=? i) && (i <? t_count s) then center c (w_index i s) else s)
  end.
(** update_needle (1273-1350) *)
Definition update_needle (c : cfg) (e : env) (from_begin need clears : bool) (s : st) : outcome :=
  finish c clears
    (if negb (c_win c) then
       let s := w_title (negb (is_nil (t_needle s))) s in
       if t_nf s then (if need then display c s else Some s)
       else if e_queued e && (t_filt s || e_invalid e (t_needle s)) then Some (w_pend (Some (1, from_begin, false)) s)
       else then_display c (do_find c (e_busy e) 1 from_begin false s) need
     else if t_isnum s then
       if negb (is_nil (t_needle s)) then enter_number c s
       else
         let need := need || t_title s in
         let s := w_title false s in
         if need then display c s else Some s
     else if negb (is_nil (t_needle s)) then then_display c (do_find c (e_busy e) 1 from_begin true s) need
     else if need then display c s else Some s).

(** One byte of the text (1238-1271) and whether to display *)
Definition collect (c : cfg) (sn : st * bool) (b : byte) : st * bool :=
  let '(s, need) := sn in
  if Nat.ltb (nat_of_ascii b) 32 then sn
  else if negb (c_win c) then (w_needle (t_needle s ++ [b]) (w_title false s), true)
  else if is_digit b then
    let '(s, need) := if t_isnum s then sn
                      else (w_isnum true (w_nf false (w_needle [] (w_title false s))), need || t_shown_title s) in
    (if Nat.ltb (length (t_needle s)) 6 then w_needle (t_needle s ++ [b]) s else s, need)
  else (w_isnum false (w_nf false (w_needle [b] (w_title false s))), need || t_shown_title s).
Definition text (c : cfg) (e : env) (keys : bytes) (s : st) : outcome :=
  let s := if t_clr s then w_clr false (if t_filt s then s else w_isnum false (w_nf false (w_needle [] s))) else s in
  let '(s, need) := fold_left (collect c) keys (s, false) in
  update_needle c e false need false s.

(** A find that waits for more input is done before any other key (862-870). *)
Definition settle (c : cfg) (e : env) (k : key) (s : st) : option st :=
  match k, t_pend s with
  | k_backspace _, _ | k_text _, _ | _, None => Some s
  | _, Some (d, from_begin, advance_before) =>
      match do_find c (e_busy e) d from_begin advance_before (w_pend None s) with
      | None => None
      | Some (s, _) => display c s
      end
  end.
(** on_input (853-1360), without the find that waits *)
Definition act (c : cfg) (e : env) (k : key) (s : st) : outcome :=
  match k with
  | k_up => navigated c (w_index (if t_index s - 1 <? 0 then (if c_wrap c then t_count s - 1 else 0) else t_index s - 1) s)
  | k_down => navigated c (w_index (if t_count s <=? t_index s + 1 then (if c_wrap c then 0 else t_count s - 1) else t_index s + 1) s)
  | k_home => navigated c (w_index 0 s)
  | k_end => navigated c (w_index (t_count s - 1) s)
  | k_pgup => page_up c s
  | k_pgdn => page_down c s
  | k_findnext => finish c false (if c_win c then Some s else then_display c (do_find c (e_busy e) 1 false true s) false)
  | k_findprev => finish c false (if c_win c then Some s else then_display c (do_find c (e_busy e) (-1) false true s) false)
  | k_copy => match zth (t_entries s) (t_index s) with Some t => Go (w_clip (Some t) s) | None => Undefined end
  | k_delete ok => delete c ok s
  | k_escape => Ended Cancelled s
  | k_enter => if (t_index s <? 0) || (t_count s <=? t_index s) then finish c true (Some s) else choose true s
  | k_insert => if (t_index s <? 0) || (t_count s <=? t_index s) then finish c true (Some s) else choose false s
  | k_mouse m in_bar inside row can_scroll speed => mouse c m in_bar inside row can_scroll speed s
  | k_wheelup n => wheel c true n s
  | k_wheeldown n => wheel c false n s
  | k_arrow moved =>
      if c_win c then
        if (t_index s <? 0) || (t_count s <=? t_index s) then finish c true (Some s) else choose false s
      else finish c true (if moved then display c s else Some s)
  | k_horz moved => finish c true (if moved then display c s else Some s)
  | k_togglefilter =>
      if c_win c then finish c true (Some s)
      else
        let s := if t_filt s then clear_filter s else s in
        update_needle c e false true true (w_filt (negb (t_filt s)) s)
  | k_help => finish c true (Some s)
  | k_backspace point =>
      if is_nil (t_needle s) then finish c false (Some s)
      else update_needle c e (negb (c_win c)) true false (w_nf false (w_needle (firstn point (t_needle s)) s))
  | k_text keys => text c e keys s
  end.
Definition on_input (c : cfg) (e : env) (k : key) (s : st) : outcome :=
  if c_vis c <=? 0 then Ended Cancelled s
  else match settle c e k (w_ign false s) with None => Undefined | Some s => act c e k s end.

(** activate (560-665): [entries] with the items made of them, [infos], [from]: the list they come from, the selection,
    m_filter at the start.  m_scroll_bar_clicked is not reset (2059-2114). *)
Definition activate (c : cfg) (entries : list bytes) (items : list item) (infos : option (list Z)) (from : list bytes)
    (index : Z) (filt bar : bool) (clip : option bytes) : option st :=
  let n := Z.of_nat (length entries) in
  let out := (index <? 0) || (n <=? index) in
  let i := if out then n - 1 else index in
  let t := if out then Z.max 0 (n - c_vis c) else Z.max 0 (Z.min (i - Z.quot (c_vis c) 2) (n - c_vis c)) in
  if (n <=? 0) || (c_vis c <=? 0) then None
  else display c (mkSt entries items infos from n n filt [] [] (-1) (-1) i t false [] false false false None false false bar clip).
End Find.
