(** clink/terminal/src/win_terminal_in.cpp: console input records become bytes, which wait in a buffer of 16.

    Words, bytes and characters are N.  The bits of dwControlKeyState that matter are booleans; the others (locks, enhanced key) are one boolean.
    Verbose input, logging and the debug assertions are left out.  What the console sent and was not read yet is a list of records; waiting for more
    (WaitForMultipleObjects) is the end of the list. *)
From Coq Require Import Ascii String.
From Verif Require Import Base UtfModel.
Open Scope N_scope.

Definition bytes := list N.
Definition str (x : string) : bytes := map N_of_ascii (list_ascii_of_string x).
Arguments str x%string.

(** ** terminfo, 97-219 *)
(** the macros CSI, SS3, ACSI, ASS3, MOK, 94-98 *)
Definition csi (x : string) : bytes := 27 :: 91 :: str x.
Definition ss3 (x : string) : bytes := 27 :: 79 :: str x.
Definition acsi (x : string) : bytes := 27 :: csi x.
Definition ass3 (x : string) : bytes := 27 :: ss3 x.
Definition mok (x : string) : bytes := csi ("27;" ++ x ++ "~").
Arguments csi x%string. Arguments ss3 x%string. Arguments acsi x%string. Arguments ass3 x%string. Arguments mok x%string.
Definition kcuu1 := [csi "A"; csi "1;2A"; csi "1;5A"; csi "1;6A"; csi "1;3A"; csi "1;4A"; csi "1;7A"; csi "1;8A"].
Definition kcud1 := [csi "B"; csi "1;2B"; csi "1;5B"; csi "1;6B"; csi "1;3B"; csi "1;4B"; csi "1;7B"; csi "1;8B"].
Definition kcub1 := [csi "D"; csi "1;2D"; csi "1;5D"; csi "1;6D"; csi "1;3D"; csi "1;4D"; csi "1;7D"; csi "1;8D"].
Definition kcuf1 := [csi "C"; csi "1;2C"; csi "1;5C"; csi "1;6C"; csi "1;3C"; csi "1;4C"; csi "1;7C"; csi "1;8C"].
Definition kich1 := [csi "2~"; csi "2;2~"; csi "2;5~"; csi "2;6~"; csi "2;3~"; csi "2;4~"; csi "2;7~"; csi "2;8~"].
Definition kdch1 := [csi "3~"; csi "3;2~"; csi "3;5~"; csi "3;6~"; csi "3;3~"; csi "3;4~"; csi "3;7~"; csi "3;8~"].
Definition khome := [csi "H"; csi "1;2H"; csi "1;5H"; csi "1;6H"; csi "1;3H"; csi "1;4H"; csi "1;7H"; csi "1;8H"].
Definition kend := [csi "F"; csi "1;2F"; csi "1;5F"; csi "1;6F"; csi "1;3F"; csi "1;4F"; csi "1;7F"; csi "1;8F"].
Definition kpp := [csi "5~"; csi "5;2~"; csi "5;5~"; csi "5;6~"; csi "5;3~"; csi "5;4~"; csi "5;7~"; csi "5;8~"].
Definition knp := [csi "6~"; csi "6;2~"; csi "6;5~"; csi "6;6~"; csi "6;3~"; csi "6;4~"; csi "6;7~"; csi "6;8~"].
Definition kbks := [[8]; mok "2;8"; [127]; mok "6;8"; [27; 8]; mok "4;8"; [27; 127]; mok "8;8"].
Definition kret := [[13]; mok "2;13"; mok "5;13"; mok "6;13"; mok "3;13"; mok "4;13"; mok "7;13"; mok "8;13"].
Definition kcbt := csi "Z".
Definition kaltO := csi "27;4;79~".
Definition kaltlb := csi "27;3;91~".
Definition kfx : list bytes :=
  [ss3 "P"; ss3 "Q"; ss3 "R"; ss3 "S"; csi "15~"; csi "17~"; csi "18~"; csi "19~"; csi "20~"; csi "21~"; csi "23~"; csi "24~";
   csi "1;2P"; csi "1;2Q"; csi "1;2R"; csi "1;2S"; csi "15;2~"; csi "17;2~"; csi "18;2~"; csi "19;2~"; csi "20;2~"; csi "21;2~"; csi "23;2~"; csi "24;2~";
   csi "1;5P"; csi "1;5Q"; csi "1;5R"; csi "1;5S"; csi "15;5~"; csi "17;5~"; csi "18;5~"; csi "19;5~"; csi "20;5~"; csi "21;5~"; csi "23;5~"; csi "24;5~";
   csi "1;6P"; csi "1;6Q"; csi "1;6R"; csi "1;6S"; csi "15;6~"; csi "17;6~"; csi "18;6~"; csi "19;6~"; csi "20;6~"; csi "21;6~"; csi "23;6~"; csi "24;6~";
   ass3 "P"; ass3 "Q"; ass3 "R"; ass3 "S"; acsi "15~"; acsi "17~"; acsi "18~"; acsi "19~"; acsi "20~"; acsi "21~"; acsi "23~"; acsi "24~";
   acsi "1;2P"; acsi "1;2Q"; acsi "1;2R"; acsi "1;2S"; acsi "15;2~"; acsi "17;2~"; acsi "18;2~"; acsi "19;2~"; acsi "20;2~"; acsi "21;2~"; acsi "23;2~"; acsi "24;2~";
   acsi "1;5P"; acsi "1;5Q"; acsi "1;5R"; acsi "1;5S"; acsi "15;5~"; acsi "17;5~"; acsi "18;5~"; acsi "19;5~"; acsi "20;5~"; acsi "21;5~"; acsi "23;5~"; acsi "24;5~";
   acsi "1;6P"; acsi "1;6Q"; acsi "1;6R"; acsi "1;6S"; acsi "15;6~"; acsi "17;6~"; acsi "18;6~"; acsi "19;6~"; acsi "20;6~"; acsi "21;6~"; acsi "23;6~"; acsi "24;6~"].
Definition ktab := [[9]; csi "Z"; mok "5;9"; mok "6;9"; []; []; []; []].
Definition kspc := [[32]; mok "2;32"; mok "5;32"; mok "6;32"; []; []; mok "7;32"; mok "8;32"].

(** dwControlKeyState *)
Record flags := mkF { f_shift : bool; f_lctrl : bool; f_rctrl : bool; f_lalt : bool; f_ralt : bool; f_other : bool }.
Definition ctrl (f : flags) : bool := f_lctrl f || f_rctrl f.
Definition alt (f : flags) : bool := f_lalt f || f_ralt f.
Definition bit (b : bool) (n : nat) : nat := if b then n else O.
(** 161-179 *)
Definition xterm_modifier (f : flags) : nat := (bit (f_shift f) 1 + bit (alt f) 2 + bit (ctrl f) 4 + 1)%nat.
Definition keymod_index (f : flags) : nat := (bit (f_shift f) 1 + bit (ctrl f) 2 + bit (alt f) 4)%nat.
Definition VK_BACK := 8. Definition VK_TAB := 9. Definition VK_RETURN := 13. Definition VK_SHIFT := 16. Definition VK_CONTROL := 17. Definition VK_MENU := 18.
Definition VK_ESCAPE := 27. Definition VK_SPACE := 32. Definition VK_PRIOR := 33. Definition VK_NEXT := 34. Definition VK_END := 35. Definition VK_HOME := 36.
Definition VK_LEFT := 37. Definition VK_UP := 38. Definition VK_RIGHT := 39. Definition VK_DOWN := 40. Definition VK_INSERT := 45. Definition VK_DELETE := 46.
Definition VK_LWIN := 91. Definition VK_RWIN := 92. Definition VK_F1 := 112. Definition VK_F12 := 123. Definition VK_OEM_MINUS := 189.
Definition is_letter (vk : N) : bool := (65 <=? vk) && (vk <=? 90).
(** 181-214 *)
Definition is_vk_recognized (vk : N) : bool := is_letter vk || ((48 <=? vk) && (vk <=? 57)) || ((186 <=? vk) && (vk <=? 192)) || ((219 <=? vk) && (vk <=? 222)).

(** the settings terminal.raw_esc, cmd.altf4_exits, terminal.differentiate_keys, terminal.use_altgr_substitute, clink.default_bindings = windows *)
Record settings := mkSet { g_raw_esc : bool; g_altf4 : bool; g_diff : bool; g_altgr : bool; g_windows : bool }.
(** get_bindable_esc, 222-234; [req]: a request is sent to the terminal *)
Definition get_bindable_esc (g : settings) (req : bool) : option bytes := if req then None else if g_raw_esc g then None else Some (csi "27;27~").

(** ** process_input of a key, 1444-1714 *)
Record key := mkK { k_down : bool; k_char : N; k_vk : N; k_sc : N; k_flags : flags }.
(** what is pushed: nothing, a sequence, some values, or Alt-F4 *)
Inductive act := ANone | ASeq (s : bytes) | AVals (l : list N) | AExit.
(** %u *)
Fixpoint digits (fuel : nat) (n : N) : bytes := match fuel with O => [] | S fuel' => if n <? 10 then [48 + n] else digits fuel' (n / 10) ++ [48 + n mod 10] end.
Definition dec (n : N) : bytes := digits 11 n.
Section Key.
(** GetKeyNameTextW, if it is one character *)
Variable key_name : N -> N -> option N.
Variable g : settings.
Variable req : bool.
(** translate_ctrl_bracket, 1408-1441: the new key_vk *)
Definition translate_ctrl_bracket (vk sc : N) : option N :=
  match key_name vk sc with
  | Some c => if c =? 91 then if g_raw_esc g then Some (c - 64) else None else if (c =? 93) || (c =? 92) then Some (c - 64) else None
  | None => None
  end.
Definition seqs_of (vk : N) : option (list bytes) :=
  if vk =? VK_UP then Some kcuu1 else if vk =? VK_DOWN then Some kcud1 else if vk =? VK_LEFT then Some kcub1 else if vk =? VK_RIGHT then Some kcuf1
  else if vk =? VK_HOME then Some khome else if vk =? VK_END then Some kend else if vk =? VK_INSERT then Some kich1 else if vk =? VK_DELETE then Some kdch1
  else if vk =? VK_PRIOR then Some kpp else if vk =? VK_NEXT then Some knp else if vk =? VK_BACK then Some kbks else None.
Definition seq_at (l : list bytes) (f : flags) : act := ASeq (nth (keymod_index f) l []).
(** 1506-1525: key_char and key_flags after the check for the substitute of AltGr *)
Definition altgr_sub (c : N) (f : flags) : N * flags :=
  if f_lalt f && negb (f_ralt f) then
    let sub := ctrl f && negb (c =? 0) in
    if sub && negb (g_altgr g) then (0, f)
    else if sub then (c, mkF (f_shift f) (f_lctrl f) (f_rctrl f) false false (f_other f))
    else (c, f)
  else (c, f).
(** 1625-1692: the control code, if there is one *)
Definition ctrl_code (c vk sc : N) (f : flags) : option N :=
  if negb (f_shift f) || (vk =? 50) || (vk =? 54) || (vk =? VK_OEM_MINUS) then
    let not_ctrl := translate_ctrl_bracket vk sc in
    if is_letter vk then
      if ((vk =? 72) || (vk =? 73)) && g_diff g then not_ctrl
      else if (vk =? 77) && (g_diff g || g_windows g) then not_ctrl
      else Some (vk - 64)
    else if vk =? 50 then if g_diff g && negb (f_shift f) then not_ctrl else Some 0
    else if vk =? 54 then if g_diff g && negb (f_shift f) then not_ctrl else Some 30
    else if vk =? VK_OEM_MINUS then if f_shift f then Some 31 else None
    else if c =? 27 then if g_diff g then not_ctrl else Some c
    else if (c =? 28) || (c =? 29) then Some c
    else not_ctrl
  else None.
(** 1580-1590 *)
Definition simple_char (c vk : N) (f : flags) : bool :=
  if (vk =? 72) || (vk =? 73) then negb (ctrl f) || negb (g_diff g)
  else if vk =? 77 then negb (ctrl f) || (negb (g_diff g) && negb (g_windows g))
  else if (c =? 27) && negb (vk =? VK_ESCAPE) then (keymod_index f <? 2)%nat
  else if (vk =? VK_RETURN) || (vk =? VK_BACK) then negb (ctrl f || f_shift f)
  else negb (ctrl f) || negb (f_shift f).
Definition with_alt (f : flags) (v : N) : act := AVals (if alt f then [27; v] else [v]).
(** 1600-1713 *)
Definition process_rest (c vk sc : N) (f : flags) : act :=
  match seqs_of vk with
  | Some l => seq_at l f
  | None =>
      let ext vk := if is_vk_recognized vk then
          let m := xterm_modifier f in
          ASeq (csi "27;" ++ (if (2 <=? m)%nat then dec (N.of_nat m) ++ [59] else []) ++ dec vk ++ [126])
        else ANone in
      if ctrl f then match ctrl_code c vk sc f with Some v => with_alt f v | None => ext vk end else ext vk
  end.
(** 1444-1600; [empty]: !m_buffer_count *)
Definition process_key (empty : bool) (k : key) : act :=
  let c := k_char k in let vk := k_vk k in let f := k_flags k in
  if negb (k_down k) && negb ((vk =? VK_MENU) && negb (c =? 0)) then ANone
  else if vk =? VK_MENU then if c =? 0 then ANone else AVals [c]
  else if (vk =? VK_CONTROL) || (vk =? VK_SHIFT) || (vk =? VK_LWIN) || (vk =? VK_RWIN) then ANone
  else
    match (if (c =? 27) && ((vk =? VK_ESCAPE) || negb (g_diff g)) && negb req then get_bindable_esc g req else None) with
    | Some s => ASeq s
    | None =>
      let '(c, f) := altgr_sub c f in
      if (vk =? VK_TAB) && ((c =? 9) || (c =? 0)) && empty then seq_at ktab f
      else if (vk =? VK_SPACE) && ((c =? 32) || (c =? 0)) && empty then seq_at kspc f
      else if (vk =? VK_RETURN) && (f_shift f || ctrl f || alt f || f_other f) && empty then seq_at kret f
      else
        let f := if (31 <? c) && negb (c =? 127) && ctrl f then mkF (f_shift f) false false false false (f_other f) else f in
        if (c =? 9) && empty && f_shift f && negb (g_diff g) then ASeq kcbt
        else if (VK_F1 <=? vk) && (vk <=? VK_F12) then
          if (keymod_index f =? 4)%nat && (vk - VK_F1 =? 3) && g_altf4 g then AExit
          else ASeq (nth (12 * keymod_index f + N.to_nat (vk - VK_F1)) kfx [])
        else if negb (c =? 0) && (c =? 79) && negb (g_raw_esc g) && negb (ctrl f) && f_shift f && alt f then ASeq kaltO
        else if negb (c =? 0) && (c =? 91) && negb (g_raw_esc g) && negb (ctrl f || f_shift f) && alt f then ASeq kaltlb
        else if negb (c =? 0) && simple_char c vk f then with_alt f c
        else process_rest c vk (k_sc k) f
    end.
End Key.

(** ** process_input of the mouse, 1754-1873 *)
Record mouse := mkMs { ms_x : Z; ms_y : Z; ms_left : bool; ms_right : bool; ms_high : Z; ms_double : bool; ms_wheel : bool; ms_hwheel : bool; ms_moved : bool }.
Inductive mtype := MLeft | MRight | MWheel | MHwheel | MDrag.
(** int to %u *)
Definition u32 (z : Z) : N := Z.to_N (z mod 4294967296).
Section Mouse.
(** m_keys && m_keys->accepts_mouse_input, and SPI_GETWHEELSCROLLLINES (as an int32) *)
Variable accepts : mtype -> bool.
Variable lines : Z.
(** [prev]: m_prev_mouse_button_state (left, right) *)
Definition mouse_type (prev : bool * bool) (m : mouse) : option mtype :=
  let left := negb (fst prev) && ms_left m in
  let right := negb left && negb (snd prev) && ms_right m in
  let wheel := negb left && negb right && ms_wheel m in
  let hwheel := negb left && negb right && negb wheel && ms_hwheel m in
  let drag := ms_left m && negb left && negb right && negb wheel && negb hwheel && ms_moved m in
  if left then Some MLeft else if right then Some MRight else if wheel then Some MWheel else if hwheel then Some MHwheel else if drag then Some MDrag else None.
Definition process_mouse (prev : bool * bool) (m : mouse) : act :=
  match mouse_type prev m with
  | None => ANone
  | Some ty =>
      if negb (accepts ty) then ANone
      else
        let click code := ASeq (csi "$" ++ dec (u32 (ms_x m)) ++ [59] ++ dec (u32 (ms_y m)) ++ [code]) in
        match ty with
        | MDrag => click 77
        | MRight => click 82
        | MLeft => click (if ms_double m then 68 else 76)
        | MWheel => let d := Z.quot (0 - ms_high m) 120 in ASeq (csi "$" ++ dec (u32 (Z.abs d * lines)) ++ [if (d <? 0)%Z then 65 else 66])
        | MHwheel => let d := Z.quot (ms_high m) 32 in ASeq (csi "$" ++ dec (u32 (Z.abs d)) ++ [if (d <? 0)%Z then 60 else 62])
        end
  end.
End Mouse.

(** ** The buffer: push, 1920-1987, and pop, 1990-2001 *)
Definition size : nat := 16.
Inductive record := RKey (k : key) | RMouse (m : mouse) | RSize (changed : bool) | ROther.
(** m_buffer, m_buffer_head, m_buffer_count, m_lead_surrogate, m_prev_mouse_button_state, m_pending_records (the back first) *)
Record tin := mkT { t_buf : list N; t_head : nat; t_count : nat; t_lead : N; t_prev : bool * bool; t_pend : list record }.
Definition set_nth (i : nat) (v : N) (l : list N) : list N := firstn i l ++ v :: skipn (S i) l.
(** m_buffer[index & mask] = b; ++m_buffer_count, if there is room *)
Definition push_byte (b : N) (t : tin) : tin :=
  if (t_count t <? size)%nat then mkT (set_nth ((t_head t + t_count t) mod size) b (t_buf t)) (t_head t) (S (t_count t)) (t_lead t) (t_prev t) (t_pend t) else t.
Definition set_lead (v : N) (t : tin) : tin := mkT (t_buf t) (t_head t) (t_count t) v (t_prev t) (t_pend t).
Definition push_bytes (l : bytes) (t : tin) : tin := fold_left (fun t b => push_byte b t) l t.
(** a NUL ends the sequence *)
Fixpoint cut_nul (l : bytes) : bytes := match l with [] => [] | c :: l' => if c =? 0 then [] else c :: cut_nul l' end.
Definition push_seq (s : bytes) (t : tin) : tin := push_bytes (cut_nul s) (set_lead 0 t).
Definition is_lead_surrogate (v : N) : bool := (55296 <=? v) && (v <=? 56319).
(** to_utf8(utf8, 16, wc) *)
Definition utf8_of (wc : list N) : bytes := match to_utf8 (wc ++ [0]) (Some (repeat 0 16)) 16 None 0 with Some (n, Some l, _) => firstn n l | _ => [] end.
Definition push_val (v : N) (t : tin) : tin :=
  if v <? 128 then push_byte v (set_lead 0 t)
  else if is_lead_surrogate v then set_lead v t
  else push_bytes (utf8_of (if t_lead t =? 0 then [v mod 65536] else [t_lead t; v mod 65536])) (set_lead 0 t).
Definition push_vals (l : list N) (t : tin) : tin := fold_left (fun t v => push_val v t) l t.
Definition input_none_byte := 254. Definition input_abort_byte := 255. Definition input_exit_byte := 253.
Definition apply_act (a : act) (t : tin) : tin :=
  match a with
  | ANone => t
  | ASeq s => push_seq s t
  | AVals l => push_vals l t
  | AExit => mkT (set_nth 0 input_exit_byte (t_buf t)) 0 1 (t_lead t) (t_prev t) (t_pend t)
  end.
Definition pop (t : tin) : N * tin :=
  match t_count t with
  | O => (input_none_byte, t)
  | S n => (nth (t_head t) (t_buf t) 0, mkT (t_buf t) ((t_head t + 1) mod size) n (t_lead t) (t_prev t) (t_pend t))
  end.

(** ** filter_unbound_input, process_record, peek_record, read_console, available, read, peek *)
(** m_keys: translate and is_bound *)
Record keys := mkKs { ks_translate : bytes -> option bytes; ks_bound : bytes -> bool }.
Section In.
Variable key_name : N -> N -> option N.
Variable g : settings.
Variable accepts : mtype -> bool.
Variable lines : Z.
Variable ks : option keys.
Variable req : bool.
Definition set_count (n : nat) (t : tin) : tin := mkT (t_buf t) (t_head t) n (t_lead t) (t_prev t) (t_pend t).
(** (uint32)char *)
Definition sext (b : N) : N := if b <? 128 then b else 4294967040 + b.
(** 1876-1917 *)
Definition filter_unbound_input (count : nat) (t : tin) : tin :=
  match ks with
  | None => t
  | Some k =>
      if (t_count t <=? count)%nat then t
      else
        let chord := map (fun i => nth ((t_head t + i) mod size) (t_buf t) 0) (seq 0 (t_count t - count)) in
        match ks_translate k chord with
        | Some new => push_vals (map sext new) (set_count count t)
        | None => if ks_bound k chord then t else set_count count t
        end
  end.
Definition process_input (r : record) (t : tin) : tin :=
  match r with
  | RKey k => apply_act (process_key key_name g req (t_count t =? 0)%nat k) t
  | RMouse m => let a := process_mouse accepts lines (t_prev t) m in apply_act a (mkT (t_buf t) (t_head t) (t_count t) (t_lead t) (ms_left m, ms_right m) (t_pend t))
  | _ => t
  end.
(** 1082-1137 *)
Definition process_record (r : record) (t : tin) : bool * tin :=
  let count := t_count t in
  match r with
  | RKey _ => let t := filter_unbound_input count (process_input r t) in ((count <? t_count t)%nat, t)
  | RMouse _ => let t := process_input r t in ((count <? t_count t)%nat, t)
  | RSize changed => (changed, t)
  | ROther => (false, t)
  end.
(** 1039-1079; *peeked is not set for a change of size *)
Definition peek_record (r : record) (t : tin) : bool * option N * tin :=
  let count := t_count t in let lead := t_lead t in
  match r with
  | RKey _ | RMouse _ =>
      let t := process_input r t in
      let ret := (count <? t_count t)%nat in
      let c := if ret then nth (t_head t) (t_buf t) 0 else input_none_byte in
      let t := set_count count t in
      (ret, Some c, if lead =? 0 then t else set_lead lead t)
  | RSize _ => (true, None, t)
  | ROther => (false, None, t)
  end.
Definition set_pend (l : list record) (t : tin) : tin := mkT (t_buf t) (t_head t) (t_count t) (t_lead t) (t_prev t) l.
(** the loop of 1188-1304, until the console has nothing more *)
Fixpoint console_loop (peek : bool) (q : list record) (t : tin) : tin * list record :=
  match q with
  | [] => (t, [])
  | r :: q' =>
      if peek then let '(ret, _, t) := peek_record r t in if ret then (set_pend [r] t, q') else console_loop peek q' t
      else let '(ret, t) := process_record r t in if ret then (t, q') else console_loop peek q' t
  end.
(** 1140-1305 *)
Definition read_console (peek : bool) (q : list record) (t : tin) : tin * list record :=
  if (0 <? t_count t)%nat then (t, q)
  else
    match t_pend t with
    | r :: pend => if peek then (t, q) else (snd (process_record r (set_pend pend t)), q)
    | [] => console_loop peek q t
    end.
(** 672-698 *)
Definition available (q : list record) (t : tin) : bool * (tin * list record) :=
  if (0 <? t_count t)%nat || match t_pend t with [] => false | _ => true end then (true, (t, q))
  else let '(t, q) := read_console true q t in (match t_pend t with [] => false | _ => true end, (t, q)).
(** 701-705 *)
Definition select (q : list record) (t : tin) : tin * list record := if (0 <? t_count t)%nat then (t, q) else read_console false q t.
(** 711-753; [resized]: the dimensions are not those of the last time; Undefined: a variable that was not set *)
Inductive result := Resize | None_ | Abort | Exit | Byte (b : N) | Undefined.
Definition translate_special (c : N) : result := if c =? input_none_byte then None_ else if c =? input_abort_byte then Abort else if c =? input_exit_byte then Exit else Byte c.
Definition read (resized : bool) (t : tin) : result * tin :=
  if resized then (Resize, t)
  else
    let t := if (0 <? t_count t)%nat then t else match t_pend t with r :: pend => snd (process_record r (set_pend pend t)) | [] => t end in
    if (0 <? t_count t)%nat then let '(c, t) := pop t in (translate_special c, t) else (None_, t).
Definition peek (t : tin) : result * tin :=
  if (0 <? t_count t)%nat then (translate_special (nth (t_head t) (t_buf t) 0), t)
  else match t_pend t with
       | r :: _ => let '(ret, c, t) := peek_record r t in (if ret then match c with Some c => translate_special c | None => Undefined end else None_, t)
       | [] => (None_, t)
       end.
End In.

(** ** find_key_name, 335-560 *)
Definition mods := [str ""; str "S-"; str "C-"; str "C-S-"; str "A-"; str "A-S-"; str "A-C-"; str "A-C-S-"].
(** map_keyseq_to_name: emplace adds only what is not there *)
Definition names := list (bytes * bytes).
Fixpoint eqb (a b : bytes) : bool := match a, b with [], [] => true | x :: a', y :: b' => (x =? y) && eqb a' b' | _, _ => false end.
Fixpoint assoc (s : bytes) (m : names) : option bytes := match m with [] => None | (k, v) :: m' => if eqb s k then Some v else assoc s m' end.
Definition add_keyseq (s name : bytes) (m : names) : names := match s with [] => m | _ => match assoc s m with Some _ => m | None => m ++ [(s, name)] end end.
Definition remove_keyseq (s : bytes) (m : names) : names := filter (fun x => negb (eqb s (fst x))) m.
Definition add_all (l : list (bytes * bytes)) (m : names) : names := fold_left (fun m x => add_keyseq (fst x) (snd x) m) l m.
Definition named (i : nat) : list (bytes * bytes) :=
  let b := nth i mods [] in let at_ l := nth i l [] in
  [(at_ kcuu1, b ++ str "Up"); (at_ kcud1, b ++ str "Down"); (at_ kcub1, b ++ str "Left"); (at_ kcuf1, b ++ str "Right"); (at_ khome, b ++ str "Home"); (at_ kend, b ++ str "End");
   (at_ kpp, b ++ str "PgUp"); (at_ knp, b ++ str "PgDn"); (at_ kich1, b ++ str "Ins"); (at_ kdch1, b ++ str "Del"); (at_ ktab, b ++ str "Tab"); (at_ kspc, b ++ str "Space"); (at_ kbks, b ++ str "Bkspc")]
  ++ (if (0 <? i)%nat then [(at_ kret, b ++ str "Enter")] else []).
Definition fnamed (i : nat) : list (bytes * bytes) := map (fun j => (nth (12 * i + j) kfx [], nth i mods [] ++ str "F" ++ dec (N.of_nat (j + 1)))) (seq 0 12).
(** ensure_keyseqs_to_names, 377-448; kbks is added twice.  At 436 the builder holds "A-C-S-", or nothing if Enter was added *)
Definition key_names (g : settings) (req : bool) : names :=
  let m := match get_bindable_esc g req with Some s => [(s, str "Esc")] | None => [] end in
  let m := add_all (flat_map named (seq 0 8)) m in
  let b := if g_diff g || g_windows g then [] else nth 7 mods [] in
  let m := if g_diff g || g_windows g then add_keyseq [13] (str "Enter") m else m in
  let m := if g_raw_esc g then m else add_keyseq kaltO (b ++ str "A-S-O") (add_keyseq kaltlb (b ++ str "A-[") m) in
  let m := if g_diff g then m else remove_keyseq (nth 4 kbks []) m in
  add_all (flat_map fnamed (seq 0 8)) m.
Section Names.
(** whether two sequences come into the same bucket of the map; the name of a virtual key *)
Variable bucket : bytes -> bytes -> bool.
Variable vk_name : N -> option bytes.
Fixpoint is_prefix (a b : bytes) : bool := match a, b with [], _ => true | x :: a', y :: b' => (x =? y) && is_prefix a' b' | _, _ => false end.
(** map_cmp_str compares as many bytes as are looked up *)
Definition map_find (s : bytes) (m : names) : option (bytes * bytes) := find (fun x => bucket s (fst x) && is_prefix s (fst x)) m.
Fixpoint find_longest (n : nat) (s : bytes) (m : names) : option (nat * bytes) :=
  match n with
  | O => None
  | S n' => match map_find (firstn n s) m with Some (k, v) => Some (length k, v) | None => find_longest n' s m end
  end.
Definition c_mod_names := [str ""; str "S-"; str "A-"; str "A-S-"; str "C-"; str "C-S-"; str "A-C-"; str "A-C-S-"].
Definition is_num (c : N) : bool := (48 <=? c) && (c <=? 57).
Fixpoint read_num (l : bytes) (v : N) (n : nat) : N * bytes * nat := match l with c :: l' => if is_num c then read_num l' (v * 10 + (c - 48)) (S n) else (v, l, n) | [] => (v, [], n) end.
(** 502-555 *)
Definition find_extended (s : bytes) : option (nat * bytes) :=
  if is_prefix (csi "27;") s then
    let l := skipn 5 s in
    let '(pre, l, n) := match l with a :: 59 :: l' => if (50 <=? a) && (a <=? 56) then (nth (N.to_nat (a - 49)) c_mod_names [], l', 7%nat) else ([], l, 5%nat) | _ => ([], l, 5%nat) end in
    match l with
    | c :: _ =>
        if (49 <=? c) && (c <=? 57) then
          let '(vk, l, n) := read_num l 0 n in
          match l with 126 :: _ => if is_vk_recognized vk then match vk_name vk with Some nm => Some (S n, pre ++ nm) | None => None end else None | _ => None end
        else None
    | [] => None
    end
  else None.
Definition find_key_name (g : settings) (req : bool) (s : bytes) : option (nat * bytes) :=
  match s with
  | [] => None
  | _ => match find_longest (Nat.min 16 (length s)) s (key_names g req) with Some r => Some r | None => find_extended s end
  end.
End Names.
