(** Model of the layout of matches in columns (clink/lib/src/column_widths.cpp, calculate_columns).  Widths are in cells and
    are 16-bit numbers in the code (width_t); the wrapping is explicit. *)
From Verif Require Import Base.
Local Open Scope N_scope.

Definition w16 (n : N) : N := n mod 65536.
(** A match: its width (match_len at line 302, after condensing) and the width of its description (0: none). *)
Definition item := (N * N)%type.

(** What is given: descriptions are shown; some description has three blanks; vertical; the screen width; the limits asked for. *)
Record input := mkin { i_descs : bool; i_blanks : bool; i_vertical : bool; i_screen : N; i_max_matches : Z; i_one_column : bool; i_items : list item }.
Definition count (i : input) : nat := length (i_items i).
(** 166, 228-251 *)
Definition col_padding (i : input) : N := if i_descs i then 4 else 2.
Definition no_right_justify (i : input) : bool := negb (i_descs i) || i_blanks i.
Definition desc_padding (i : input) : N := if negb (i_descs i) then 0 else if no_right_justify i then 4 else 2.
Definition paren_cells (i : input) : N := if no_right_justify i then 0 else 2.
(** 178-179 *)
Definition line_length (i : input) : N := i_screen i + (col_padding i - 1).
Definition max_idx (i : input) : N := line_length i / (1 + col_padding i).
(** 305-313 *)
Definition desc_len (i : input) (x : item) : N :=
  if i_descs i then let d := N.min 1024 (snd x) in if N.eqb d 0 then 0 else w16 (d + (desc_padding i + paren_cells i)) else 0.

(** columns_info (37-47): the layout with as many columns as [c_arr] has entries (a_len, b_len). *)
Record cinfo := mkc { c_valid : bool; c_line : N; c_arr : list (N * N) }.
(** init_column_info (90-156): None: the columns have a fixed width; memory is assumed to suffice. *)
Definition init_info (i : input) : option (list cinfo) :=
  if (i_max_matches i <? 0)%Z then None
  else if negb (Z.eqb (i_max_matches i) 0) && (i_max_matches i <? Z.of_nat (count i))%Z then None
  else let max_cols := Nat.min 50 (N.to_nat (if N.of_nat (count i) <? max_idx i then N.of_nat (count i) else max_idx i)) in
       Some (map (fun j => mkc true (w16 (N.of_nat (j + 1) * (1 + col_padding i))) (repeat (1, col_padding i) (j + 1))) (seq 0 max_cols)).

(** 326-328 *)
Definition column_of (vertical : bool) (count fileno j : nat) : nat :=
  (if vertical then fileno / ((count + j) / (j + 1)) else fileno mod (j + 1))%nat.
Fixpoint set_arr (l : list (N * N)) (k : nat) (x : N * N) : list (N * N) :=
  match l, k with [], _ => [] | _ :: r, O => x :: r | y :: r, S k => y :: set_arr r k x end.
(** One layout and one match (324-347); None: outside the array. *)
Definition fit (i : input) (fileno : nat) (m d : N) (c : cinfo) : option cinfo :=
  if negb (c_valid c) then Some c else
  let idx := column_of (i_vertical i) (count i) fileno (length (c_arr c) - 1) in
  match nth_error (c_arr c) idx with
  | None => None
  | Some (a0, b0) =>
      let a := if no_right_justify i then N.max a0 m else w16 (m + d) in
      let b := if no_right_justify i then w16 (d + col_padding i) else col_padding i in
      let c1 := if a0 <? a then let l := w16 (c_line c + (a - a0)) in mkc (l <? line_length i) l (set_arr (c_arr c) idx (a, b0)) else c in
      let a1 := if a0 <? a then a else a0 in
      Some (if b0 <? b then let l := w16 (c_line c1 + (b - b0)) in mkc (l <? line_length i) l (set_arr (c_arr c1) idx (a1, b)) else c1)
  end.
Fixpoint fit_all (i : input) (fileno : nat) (m d : N) (t : list cinfo) : option (list cinfo) :=
  match t with
  | [] => Some []
  | c :: r => match fit i fileno m d c, fit_all i fileno m d r with Some c, Some r => Some (c :: r) | _, _ => None end
  end.
(** max_valid and max_cols (321, 349-355): the layouts after the last valid one are dropped. *)
Fixpoint drop_invalid (t : list cinfo) : list cinfo :=
  match t with
  | [] => []
  | c :: r => match drop_invalid r with [] => if c_valid c then [c] else [] | r' => c :: r' end
  end.
(** The loop (262-356) *)
Record maxes := mkmax { x_match : N; x_desc : N; x_len : N }.
Definition more (i : input) (x : item) (t : maxes) : maxes :=
  let d := desc_len i x in
  mkmax (N.max (x_match t) (fst x)) (if i_descs i then N.max (x_desc t) d else x_desc t) (N.max (x_len t) (fst x + d)).
Fixpoint loop (i : input) (fixed : bool) (fileno : nat) (xs : list item) (mx : maxes) (t : list cinfo) : option (maxes * list cinfo) :=
  match xs with
  | [] => Some (mx, t)
  | x :: r =>
      if fixed then loop i fixed (S fileno) r (more i x mx) t
      else match fit_all i fileno (fst x) (desc_len i x) t with
           | None => None
           | Some t => loop i fixed (S fileno) r (more i x mx) (drop_invalid t)
           end
  end.

(** column_widths (column_widths.h 19-31) *)
Record widths := mkws { w_widths : list N; w_match : list N; w_desc_padding : N; w_right : bool }.
(** Subtraction of size_t (64 bits) *)
Definition size_sub (a b : N) : N := Z.to_N ((Z.of_N a - Z.of_N b) mod 18446744073709551616).
(** Find maximum allowed columns (378-382) *)
Fixpoint find_limit (t : list cinfo) (limit : nat) : nat :=
  match limit with
  | O => O
  | S k => match k with
           | O => limit
           | S _ => match nth_error t k with Some c => if c_valid c then limit else find_limit t k | None => limit end
           end
  end.
(** calculate_columns (161-414); None: undefined *)
Definition calculate (i : input) : option widths :=
  let info := init_info i in
  let fixed := match info with None => true | Some _ => i_one_column i end in
  match loop i fixed 0 (i_items i) (mkmax 0 0 0) (match info with Some t => t | None => [] end) with
  | None => None
  | Some (mx, t) =>
      let layout :=
        if fixed || Nat.eqb (length t) 0 then
          let limit := if i_one_column i then 1 else N.max (line_length i / (x_len mx + col_padding i)) 1 in
          Some (repeat (w16 (x_len mx)) (N.to_nat limit), repeat (w16 (x_match mx)) (N.to_nat limit))
        else match nth_error t (find_limit t (length t) - 1) with
             | None => None
             | Some c => Some (map (fun ab => w16 (fst ab + snd ab - col_padding i)) (c_arr c), map fst (c_arr c))
             end in
      match layout with
      | None => None
      | Some (ws, ms) =>
          let limit := length ws in
          let right := negb (no_right_justify i) && ((1 <? limit)%nat || (i_screen i * 4 / 10 <? x_match mx)) &&
                       (hd 0 ws <? size_sub (i_screen i) 2) in
          Some (if negb (no_right_justify i) && negb right
                then mkws (repeat (w16 (x_match mx + (4 - desc_padding i) + x_desc mx)) limit) (repeat (w16 (x_match mx)) limit) 4 right
                else mkws ws ms (desc_padding i) right)
      end
  end.

(** ** Printing a row (display_match_list_internal in display_matches.cpp, 924-1007), in cells; [cols] is the real screen width *)
(** A match and its description in column [j]: 927-1001; the description is cut to what is left (a width of 0 or less: nothing). *)
Definition col_max (i : input) (w : widths) (cols : N) (j : nat) : N :=
  if i_descs i && negb (w_right w) then cols - 1 else nth j (w_widths w) 0.
Definition printed (i : input) (w : widths) (cols : N) (j : nat) (x : item) : N :=
  if i_descs i && negb (N.eqb (snd x) 0) then
    let parens := if w_right w then 2 else 0 in
    let pad_to := if w_right w then N.max (fst x + w_desc_padding w) (col_max i w cols j - (snd x + parens))
                  else nth j (w_match w) 0 + w_desc_padding w in
    if pad_to <? cols - 1 then pad_to + parens + N.min (snd x) (col_max i w cols j - (pad_to + parens)) else fst x
  else fst x.
(** pad_filename (617-644) *)
Definition padded (len to : N) : N := if to <=? len then len + 1 else to.
(** The columns from [j] on in the row whose match there is number [l]: [k] columns are left. *)
Fixpoint row_cells (i : input) (w : widths) (cols : N) (stride : nat) (k j l : nat) : N :=
  match k with
  | O => 0
  | S k => match nth_error (i_items i) l with
           | None => 0
           | Some x =>
               let p := printed i w cols j x in
               if negb (Nat.eqb k 0) && (l + stride <? count i)%nat
               then padded p (col_max i w cols j + col_padding i) + row_cells i w cols stride k (S j) (l + stride)
               else p
           end
  end.
Definition row (i : input) (w : widths) (cols : N) (r : nat) : N :=
  let limit := length (w_widths w) in
  let rows := ((count i + (limit - 1)) / limit)%nat in
  if i_vertical i then row_cells i w cols rows limit 0 r else row_cells i w cols 1 limit 0 (r * limit).
