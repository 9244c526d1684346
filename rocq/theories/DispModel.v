(** clink/lib/src/display_readline.cpp: the input line on the screen.

    Text is a list of code points, each with the face (colour) it is shown in; the buffers of the code hold the UTF-8 bytes
    and one face per byte.  The bytes of one code point have one face here.  Positions in the line buffer are byte
    positions.  [gl] is wcwidth_iter (see WcModel): the characters of a text, with character_wcwidth_signed. *)
From Verif Require Import Base.
Open Scope N_scope.

Definition tch := (N * N)%type.
Definition text := list tch.
Definition cluster := (text * Z)%type.

(** display_readline.h 66, 75, 77-78 *)
Definition f_normal : N := 48.
Definition f_scroll : N := 60.
Definition f_hist1 : N := 33.
Definition f_hist2 : N := 63.
Definition hist (f : N) : bool := (f =? f_hist1) || (f =? f_hist2).

(** bytes of a code point in UTF-8, and of a text *)
Definition ulen (c : N) : nat := if c <? 128 then 1%nat else if c <? 2048 then 2%nat else if c <? 65536 then 3%nat else 4%nat.
Fixpoint blen (t : text) : nat := match t with [] => 0%nat | c :: t' => (ulen (fst c) + blen t')%nat end.

Definition ceqb (a b : tch) : bool := (fst a =? fst b) && (snd a =? snd b).
Fixpoint teqb (a b : text) : bool := match a, b with [], [] => true | x :: a', y :: b' => ceqb x y && teqb a' b' | _, _ => false end.

(** character_wcwidth_onectrl, character_wcwidth_twoctrl (wcwidth.h 44-46) *)
Definition wid (g : cluster) : nat := if (snd g <? 0)%Z then 1%nat else Z.to_nat (snd g).
Definition wid2 (g : cluster) : nat := if (snd g <? 0)%Z then 2%nat else Z.to_nat (snd g).
Fixpoint width (l : list cluster) : nat := match l with [] => 0%nat | g :: l' => (wid g + width l')%nat end.

(** display_line, 391-420; the allocation is left out *)
Record line := mkL { l_text : text; l_start : nat; l_end : nat; l_x : nat; l_lastcol : nat; l_lead : nat; l_trail : nat; l_newline : bool; l_toeol : bool }.
Definition fresh (start x : nat) : line := mkL [] start 0 x 0 0 0 false true.
Definition add (t : text) (d : line) : line := mkL (l_text d ++ t) (l_start d) (l_end d) (l_x d) (l_lastcol d) (l_lead d) (l_trail d) (l_newline d) (l_toeol d).
(** appendspace, 501-505, n times *)
Definition pad (n : nat) (d : line) : line := mkL (l_text d ++ repeat (32, f_normal) n) (l_start d) (l_end d) (l_x d) (l_lastcol d) (l_lead d) (l_trail d + n) (l_newline d) (l_toeol d).
Definition close (lastcol e : nat) (nl : bool) (d : line) : line := mkL (l_text d) (l_start d) e (l_x d) lastcol (l_lead d) (l_trail d) nl (l_toeol d).
Definition w_lead (n : nat) (d : line) : line := mkL (l_text d) (l_start d) (l_end d) (l_x d) (l_lastcol d) n (l_trail d) (l_newline d) (l_toeol d).

Section Disp.
(** wcwidth_iter *)
Variable gl : text -> list cluster.
(** _rl_screenwidth *)
Variable W : nat.

(** ** display_lines::parse, 564-744 *)
(** the lines before the current one, the current one, col, index, m_vpos, m_cpos *)
Record pst := mkP { p_done : list line; p_cur : line; p_col : nat; p_index : nat; p_vpos : nat; p_cpos : nat }.
(** m_count - 1 *)
Definition p_row (s : pst) : nat := length (p_done s).
(** m_vpos = m_count - 1; m_cpos = col; if the condition holds *)
Definition mark (b : bool) (s : pst) : pst := if b then mkP (p_done s) (p_cur s) (p_col s) (p_index s) (p_row s) (p_col s) else s.
(** next_line, 1095-1113; col = 0 *)
Definition next_line (start : nat) (s : pst) : pst := mkP (p_done s ++ [p_cur s]) (fresh start 0) 0 (p_index s) (p_vpos s) (p_cpos s).
Definition on_cur (f : line -> line) (s : pst) : pst := mkP (p_done s) (f (p_cur s)) (p_col s) (p_index s) (p_vpos s) (p_cpos s).
Definition moved (cols bytes : nat) (s : pst) : pst := mkP (p_done s) (p_cur s) (p_col s + cols) (p_index s + bytes) (p_vpos s) (p_cpos s).

(** 600-617: a newline.  [nls]: !_rl_horizontal_scroll_mode && _rl_term_up && *_rl_term_up *)
Definition put_newline (point : nat) (s : pst) : pst :=
  let s := on_cur (close (p_col s) (p_index s) true) s in
  let s := mark (p_index s =? point)%nat s in
  let s := moved 0 1 s in
  next_line (p_index s) s.
(** 640-674: a character that is no control character.  [pos]: iter.character_pointer() - buffer *)
Definition put_plain (point pos : nat) (g : cluster) (s : pst) : pst :=
  let w := Z.to_nat (snd g) in
  let s := if (W <? p_col s + w)%nat then next_line pos (on_cur (pad (W - p_col s)) (on_cur (close (p_col s) pos false) s)) else s in
  let s := mark ((p_index s <=? point) && (point <? p_index s + blen (fst g)))%nat s in
  moved w (blen (fst g)) (on_cur (add (fst g)) s).
(** 628-639: ^X *)
Definition unctrl (c : N) : N := if c <? 32 then c + 64 else 63.
(** 691-713: one character of ^X; the flag: the line was wrapped *)
Definition put_part (point : nat) (first : bool) (c : tch) (sw : pst * bool) : pst * bool :=
  let '(s, wrapped) := sw in
  let '(s, wrapped) := if (W <=? p_col s)%nat then (mark (first && (p_index s =? point)%nat) (next_line (p_index s) (on_cur (close (p_col s) (p_index s) false) s)), true) else (s, wrapped) in
  (moved 1 0 (on_cur (add [c]) s), wrapped).
(** 628-639, 676-720; index advances by one *)
Definition put_ctrl (point : nat) (c f : N) (s : pst) : pst :=
  let s := mark (p_index s =? point)%nat s in
  let '(s, wrapped) := put_part point false (unctrl c, f) (put_part point true (94, f) (s, false)) in
  let s := moved 0 1 s in
  if wrapped then on_cur (w_lead (p_col s)) s else s.
(** 597-721; [pos] is the true position of the character *)
Definition put (nls : bool) (point pos : nat) (g : cluster) (s : pst) : pst :=
  match fst g with
  | (c, f) :: _ => if (c =? 10) && nls then put_newline point s else if (snd g <? 0)%Z then put_ctrl point c f s else put_plain point pos g s
  | [] => s
  end.
Fixpoint puts (nls : bool) (point pos : nat) (l : list cluster) (s : pst) : pst :=
  match l with [] => s | g :: l' => puts nls point (pos + blen (fst g)) l' (put nls point pos g s) end.
(** 723-743 *)
Definition parse_end (point : nat) (s : pst) : pst :=
  let s := on_cur (close (p_col s) (p_index s) false) s in
  let s := if (W <=? l_lastcol (p_cur s) + l_trail (p_cur s))%nat then on_cur (close 0 (p_index s) false) (next_line (p_index s) s) else s in
  mark (p_index s =? point)%nat s.
(** 564-596: prompt_botlin lines for the prompt, then the line that starts in column col *)
Definition parse_start (botlin col : nat) : pst := mkP (repeat (fresh 0 0) botlin) (fresh 0 col) col 0 0 col.
Definition parse (nls : bool) (botlin col : nat) (buffer : text) (point : nat) : list line * nat * nat :=
  let s := parse_end point (puts nls point 0 (gl buffer) (parse_start botlin col)) in
  (p_done s ++ [p_cur s], p_vpos s, p_cpos s).

(** ** update_line, 2478-2740 *)
(** what is sent to the terminal: the cursor moves in the row, cells are inserted and deleted, text is printed, the row is cleared from the cursor *)
Inductive op := Move (c : nat) | Ins (k : nat) | Del (k : nat) | Print (t : text) | Eol.
(** shift_cols, 2828-2880 *)
Definition shift (delta : Z) : list op := if (0 <? delta)%Z then [Ins (Z.to_nat delta)] else if (delta <? 0)%Z then [Del (Z.to_nat (- delta))] else [].
Definition spaces (n : nat) : text := repeat (32, f_normal) n.
Definition last_face (t : text) : N := snd (last t (0, 0)).
Definition first_face (l : list cluster) : N := match l with ((_, f) :: _, _) :: _ => f | _ => 0 end.

(** 2528-2573: the left index of difference; [cols], [n] are lcol and dc, [wc], [wn] lcol_whole and dc_whole (in code points) *)
Fixpoint lscan (go gd : list cluster) (hf : N) (cols n wc wn : nat) : nat * nat :=
  match go, gd with
  | go1 :: go', gd1 :: gd' =>
      if teqb (fst go1) (fst gd1) then
        let cols := (cols + wid gd1)%nat in
        let n := (n + length (fst gd1))%nat in
        let f := last_face (fst gd1) in
        if negb (hist f) then lscan go' gd' 0 cols n cols n
        else if f =? hf then lscan go' gd' hf cols n wc wn
        else if negb (match gd' with [] => true | _ => false end) && negb (f =? first_face gd') then lscan go' gd' f cols n cols n
        else lscan go' gd' f cols n wc wn
      else (wc, wn)
  | _, _ => (wc, wn)
  end.
(** 2588-2622: the right index of difference, from the right; the length of the common part, which starts with an ASCII character *)
Fixpoint rscan (ro rd : text) (n best : nat) : nat :=
  match ro, rd with
  | a :: ro', b :: rd' => if ceqb a b then rscan ro' rd' (S n) (if (ulen (fst a) =? 1)%nat then S n else best) else best
  | _, _ => best
  end.
Definition is_blank (c : tch) : bool := (fst c =? 32) && (snd c =? f_normal).
(** 2630-2645: elen characters from dc2 on; ec and ef are decremented.  [before]: what memory holds before the text *)
Fixpoint blank_scan (before : nat -> tch) (k n : nat) (v : text) : bool :=
  match n with
  | O => true
  | S n' => match v with [] => is_blank (before k) && blank_scan before (S k) n' [] | c :: v' => is_blank c && blank_scan before k n' v' end
  end.
(** 2650-2664: the run of a FACE_HISTEXPAND face that starts before dc2 *)
Fixpoint run_of (f : N) (t : text) : nat := match t with c :: t' => if snd c =? f then S (run_of f t') else O | [] => O end.
Definition hist_run (dm r : text) : nat := match dm with [] => O | _ => if hist (last_face dm) then run_of (last_face dm) r else O end.

(** lcol, rcol, lind, rind, delta, use_eol_opt *)
Record plan := mkPlan { u_lcol : nat; u_rcol : nat; u_lind : nat; u_rind : nat; u_delta : Z; u_eol : bool }.
Definition whole_plan (eol : bool) (d : line) : plan := mkPlan (l_x d) (l_lastcol d + l_trail d) 0 (length (l_text d)) 0 eol.
(** 2511-2680 *)
Definition diff_plan (before : nat -> tch) (eol rp : bool) (o d : line) : plan :=
  let '(lcol, n) := lscan (gl (l_text o)) (gl (l_text d)) 0 (l_x d) 0 (l_x d) 0 in
  let o' := skipn n (l_text o) in
  let d' := skipn n (l_text d) in
  let r := if rp then O else rscan (rev o') (rev d') 0 0 in
  let dm := firstn (length d' - r) d' in
  let rt := skipn (length d' - r) d' in
  let eol := if rp then eol else eol && blank_scan before 0 (blen rt) (firstn 1 rt ++ rev (firstn n (l_text d) ++ dm)) in
  let e := if rp then O else hist_run dm rt in
  let om := firstn (length o' - r + e) o' in
  let dm := firstn (length d' - r + e) d' in
  let dcols := width (gl dm) in
  let delta := if (length om <? length o')%nat then (Z.of_nat dcols - Z.of_nat (width (gl om)))%Z else 0%Z in
  mkPlan lcol (lcol + dcols) n (n + length dm) delta eol.
(** [wk]: m_horizpos_workaround; [rp]: has_rprompt *)
Definition update_line (before : nat -> tch) (wk rp : bool) (o : option line) (d : line) : list op :=
  if match o with Some ol => (l_x ol =? l_x d)%nat && teqb (l_text ol) (l_text d) | None => false end then []
  else
    let eol := negb wk && negb rp && l_toeol d in
    let pl := match o with
              | Some ol => if negb wk && (l_x d <=? l_x ol)%nat then diff_plan before eol rp ol d else whole_plan eol d
              | None => whole_plan eol d
              end in
    let lastcol := match o with Some ol => l_lastcol ol | None => W end in
    (match o with Some ol => if (l_x d <? l_x ol)%nat then Move (l_x d) :: shift (Z.of_nat (l_x d) - Z.of_nat (l_x ol)) else [] | None => [] end)
    ++ [Move (u_lcol pl)] ++ shift (u_delta pl)
    ++ [Print (skipn (u_lind pl) (firstn (u_rind pl) (l_text d)))]
    ++ (if (l_lastcol d <? lastcol)%nat then
          if u_eol pl then (if (u_rcol pl <? W)%nat then [Eol] else [])
          else [Move (l_lastcol d); Print (spaces (lastcol - l_lastcol d))]
        else []).

(** ** display, 1959-1991: the first line shown.  [cnt], [vpos], [cpos]: of the lines; [top]: m_top; [off]: input_botlin_offset;
    [c_horz_scroll_indicator_chars] is 1 *)
Definition bottom_offset (botlin maxrows height cnt : nat) : nat := Nat.min (Nat.min (cnt - 1 - botlin) (maxrows - 1)) (height - 1).
Definition scroll_top (botlin cnt vpos cpos off : nat) (x_of : nat -> nat) (top : nat) : nat :=
  let top := if (top <? botlin)%nat then botlin else top in
  let top := if (botlin + vpos <? top)%nat then (botlin + vpos)%nat else top in
  let top := if (top + off <? botlin + vpos)%nat then (vpos - off)%nat else top in
  let top := if (cnt <? top + off + 1)%nat then (cnt - 1 - off)%nat else top in
  if (botlin <? top)%nat && (top =? botlin + vpos)%nat then
    (if (x_of top <=? cpos)%nat && (cpos <? x_of top + 1)%nat then (top - 1)%nat else top)
  else if (top + off <? cnt - 1)%nat && (top + off =? vpos)%nat then
    (if (W <=? cpos + 1)%nat && (cpos <? W)%nat then (top + 1)%nat else top)
  else top.

(** ** translate_xy_to_readline, 3401-3460, when there is no horizontal scrolling: [v] is v_pos plus the top offset *)
(** 3440-3451: the characters of one row; the bytes taken and the rest *)
Fixpoint take_row (target consumed : nat) (l : list cluster) : nat * list cluster :=
  match l with
  | [] => (O, [])
  | g :: l' => if (target <? consumed + wid2 g)%nat then (O, l) else let '(n, r) := take_row target (consumed + wid2 g) l' in ((blen (fst g) + n)%nat, r)
  end.
(** 3434-3454 *)
Fixpoint click_rows (v x prefix : nat) (l : list cluster) : nat :=
  match v with
  | O => fst (take_row x prefix l)
  | S v' => let '(n, r) := take_row W prefix l in (n + click_rows v' x 0 r)%nat
  end.
(** 3456-3458 *)
Definition click (prefix : nat) (buffer : text) (x v : nat) : nat := Nat.min (click_rows v x prefix (gl buffer)) (blen buffer).
End Disp.
