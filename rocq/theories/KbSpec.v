(** What keys send, and reading in order. *)
From Coq Require Import Ascii String.
From Verif Require Import Base UtfSpec.
From Verif Require Export KbModel.
Open Scope N_scope.

(** what can be read from the buffer *)
Fixpoint pops (n : nat) (t : tin) : bytes := match n with O => [] | S n' => let '(c, t) := pop t in c :: pops n' t end.
Definition contents (t : tin) : bytes := pops (t_count t) t.
Definition fresh (buf : list N) (head : nat) : tin := mkT buf head 0 0 (false, false) [].
Definition is_buffer (buf : list N) (head : nat) : Prop := length buf = size /\ (head < size)%nat.
(** what a record sends: read from a buffer that was empty; [prev]: the mouse buttons that were down before *)
Definition sent_by (key_name : N -> N -> option N) (g : settings) (accepts : mtype -> bool) (lines : Z) (prev : bool * bool) (r : record) : bytes :=
  contents (process_input key_name g accepts lines false r (mkT (repeat 0 size) 0 0 0 prev [])).
Definition sent (key_name : N -> N -> option N) (g : settings) (k : key) : bytes := sent_by key_name g (fun _ => false) 0 (false, false) (RKey k).

(** ** Keys *)
(** text and commands, as users know them *)
Definition no_alt (f : flags) : bool := negb (alt f).
Definition half (c : N) : Prop := 55296 <= c < 57344.
(** a key as Windows reports it *)
Definition unit_char (k : key) : Prop := k_char k < 65536 /\ ~ half (k_char k).
(** an ESC character that is not from the key Esc or from Ctrl: typed with Alt and digits, or sent by a program *)
Definition raw_escape (g : settings) (k : key) : Prop := k_char k = 27 /\ (k_vk k = VK_MENU \/ (k_vk k <> VK_ESCAPE /\ g_diff g = true /\ ctrl (k_flags k) = false)).
(** Alt and O without Shift (Caps Lock is on), Alt and [ with Shift *)
Definition alt_intro (k : key) : Prop := alt (k_flags k) = true /\ ctrl (k_flags k) = false /\ ((k_char k = 79 /\ f_shift (k_flags k) = false) \/ (k_char k = 91 /\ f_shift (k_flags k) = true)).
Definition ordinary (g : settings) (k : key) : Prop := unit_char k /\ ~ raw_escape g k /\ ~ alt_intro k.

(** the mouse is in the screen buffer, whose size is a SHORT *)
Definition on_screen (m : mouse) : Prop := (0 <= ms_x m < 32768 /\ 0 <= ms_y m < 32768)%Z.
Definition item (g : settings) (r : record) : Prop := match r with RKey k => ordinary g k | RMouse m => on_screen m | _ => True end.

(** the keys with names, and letters with Ctrl; the characters Windows reports with them *)
Definition editing : list N := [VK_UP; VK_DOWN; VK_LEFT; VK_RIGHT; VK_HOME; VK_END; VK_INSERT; VK_DELETE; VK_PRIOR; VK_NEXT].
Definition function_keys : list N := [112; 113; 114; 115; 116; 117; 118; 119; 120; 121; 122; 123].
Definition special (k : key) : Prop :=
  k_down k = true /\
  (((In (k_vk k) editing \/ In (k_vk k) function_keys) /\ k_char k = 0) \/
   (k_vk k = VK_BACK /\ k_char k = (if ctrl (k_flags k) then 127 else 8)) \/
   (k_vk k = VK_RETURN /\ k_char k = (if ctrl (k_flags k) then 10 else 13)) \/
   (k_vk k = VK_TAB /\ k_char k = 9) \/
   (k_vk k = VK_SPACE /\ k_char k = 32)).
Definition ctrl_letter (k : key) : Prop := k_down k = true /\ 65 <= k_vk k <= 90 /\ ctrl (k_flags k) = true /\ k_char k = k_vk k - 64.
(** which key and which of Shift, Ctrl and Alt *)
Definition which (k : key) : N * (bool * bool * bool) := (k_vk k, (f_shift (k_flags k), ctrl (k_flags k), alt (k_flags k))).
(** the keys of letters are called by their letter *)
Definition letters_named (key_name : N -> N -> option N) : Prop := forall vk sc, 65 <= vk <= 90 -> key_name vk sc = Some vk.

(** their names *)
Definition name_of_vk (vk : N) : bytes :=
  if vk =? VK_UP then str "Up" else if vk =? VK_DOWN then str "Down" else if vk =? VK_LEFT then str "Left" else if vk =? VK_RIGHT then str "Right"
  else if vk =? VK_HOME then str "Home" else if vk =? VK_END then str "End" else if vk =? VK_INSERT then str "Ins" else if vk =? VK_DELETE then str "Del"
  else if vk =? VK_PRIOR then str "PgUp" else if vk =? VK_NEXT then str "PgDn" else if vk =? VK_BACK then str "Bkspc" else if vk =? VK_RETURN then str "Enter"
  else if vk =? VK_TAB then str "Tab" else if vk =? VK_SPACE then str "Space" else str "F" ++ (if vk <? 121 then [vk - 111 + 48] else [49; vk - 121 + 48]).
Definition full_name (k : key) : bytes :=
  (if alt (k_flags k) then str "A-" else []) ++ (if ctrl (k_flags k) then str "C-" else []) ++ (if f_shift (k_flags k) then str "S-" else []) ++ name_of_vk (k_vk k).

(** ** Reading in order *)
(** the calls of the editor: available, peek, select, read (with the dimensions changed or not) *)
Inductive op := OAvailable | OPeek | OSelect | ORead (resized : bool).
Section Ops.
Variable key_name : N -> N -> option N.
Variable g : settings.
Variable accepts : mtype -> bool.
Variable lines : Z.
Variable ks : option keys.
Definition call (o : op) (s : tin * list record) : list result * (tin * list record) :=
  let '(t, q) := s in
  match o with
  | OAvailable => ([], snd (available key_name g accepts lines ks false q t))
  | OPeek => ([], (snd (peek key_name g accepts lines false t), q))
  | OSelect => ([], select key_name g accepts lines ks false q t)
  | ORead resized => let '(r, t) := read key_name g accepts lines ks false resized t in (match r with Resize | None_ => [] | _ => [r] end, (t, q))
  end.
Fixpoint calls (l : list op) (s : tin * list record) : list result * (tin * list record) :=
  match l with [] => ([], s) | o :: l' => let '(a, s) := call o s in let '(b, s) := calls l' s in (a ++ b, s) end.
(** selecting and reading, over and over *)
Fixpoint straight (n : nat) : list op := match n with O => [] | S n' => OSelect :: ORead false :: straight n' end.
End Ops.
Definition no_mouse (r : record) : Prop := match r with RMouse _ => False | _ => True end.
(** the two halves of a character come one after the other, with nothing but keys going up in between; they come with no key of the keyboard (VK_PACKET or none) and without Ctrl *)
Definition goes_up (k : key) : bool := negb (k_down k) && negb (k_vk k =? VK_MENU).
Definition is_lead (c : N) : Prop := 55296 <= c < 56320.
Definition second_half (k : key) : Prop := 56320 <= k_char k < 57344 /\ (k_vk k = 0 \/ k_vk k = 231) /\ ctrl (k_flags k) = false.
Inductive paired : bool -> list record -> Prop :=
| p_nil h : paired h []
| p_up h k q : goes_up k = true -> paired h q -> paired h (RKey k :: q)
| p_first k q : is_lead (k_char k) -> paired true q -> paired false (RKey k :: q)
| p_second k q : k_down k = true -> second_half k -> paired false q -> paired true (RKey k :: q)
| p_key k q : ~ is_lead (k_char k) -> paired false q -> paired false (RKey k :: q)
| p_size h c q : paired h q -> paired h (RSize c :: q)
| p_other h q : paired h q -> paired h (ROther :: q).
Definition keeps (o : op) : Prop := match o with OSelect | ORead _ => True | _ => False end.

(** ** Names *)
(** Alt-Tab and Alt-Space belong to Windows; Alt-F4 may end the session; Enter has no name unless it differs from Ctrl-M; Alt-Backspace has none if it is Alt-Ctrl-H *)
Definition has_name (g : settings) (k : key) : Prop :=
  ~ (In (k_vk k) [VK_TAB; VK_SPACE] /\ alt (k_flags k) = true) /\
  ~ (k_vk k = 115 /\ which k = (115, (false, false, true)) /\ g_altf4 g = true) /\
  ~ (k_vk k = VK_RETURN /\ snd (which k) = (false, false, false) /\ g_diff g = false /\ g_windows g = false) /\
  ~ (k_vk k = VK_BACK /\ snd (which k) = (false, false, true) /\ g_diff g = false).
(** ** Typed text *)
(** keys of characters; the characters themselves come without Ctrl and Alt, or with AltGr *)
Definition text_vk (vk : N) : Prop := vk = 0 \/ 48 <= vk <= 90 \/ 96 <= vk <= 111 \/ 186 <= vk <= 231.
Definition text_flags (g : settings) (f : flags) : Prop := (ctrl f = false /\ alt f = false) \/ (ctrl f = true /\ (f_ralt f = true \/ (g_altgr g = true /\ f_lalt f = true))).
Definition text_key (g : settings) (c : N) (k : key) : Prop := k_down k = true /\ k_char k = c /\ ((text_vk (k_vk k) /\ text_flags g (k_flags k)) \/ (k_vk k = VK_SPACE /\ c = 32 /\ snd (which k) = (false, false, false))).
Definition printable (v : N) : Prop := scalar v /\ 32 <= v /\ v <> 127.
Definition silent (r : record) : Prop := match r with RKey k => goes_up k = true | RMouse _ => False | _ => True end.
Inductive types (g : settings) : list N -> list record -> Prop :=
| t_nil : types g [] []
| t_silent r us q : silent r -> types g us q -> types g us (r :: q)
| t_key u us k q : text_key g u k -> types g us q -> types g (u :: us) (RKey k :: q).
(** nothing is filtered *)
Definition harmless (ks : option keys) : Prop := match ks with None => True | Some k => forall c, ks_translate k c = None /\ ks_bound k c = true end.
(** what the records send, one after the other, and how it is read *)
Definition prev_after (prev : bool * bool) (r : record) : bool * bool := match r with RMouse m => (ms_left m, ms_right m) | _ => prev end.
Fixpoint sents (key_name : N -> N -> option N) (g : settings) (accepts : mtype -> bool) (lines : Z) (prev : bool * bool) (q : list record) : list bytes :=
  match q with [] => [] | r :: q' => sent_by key_name g accepts lines prev r :: sents key_name g accepts lines (prev_after prev r) q' end.
Definition nonempty (s : bytes) : bool := match s with [] => false | _ => true end.
Definition as_read (b : N) : result := if b =? 253 then Exit else Byte b.
(** letters with Ctrl that do not send a control character: with Shift, and H, I and M (which are Backspace, Tab and Enter) *)
Definition own_sequence (k : key) : Prop := f_shift (k_flags k) = true \/ k_vk k = 72 \/ k_vk k = 73 \/ k_vk k = 77.
Definition mods_prefix (k : key) : bytes := (if alt (k_flags k) then str "A-" else []) ++ (if ctrl (k_flags k) then str "C-" else []) ++ (if f_shift (k_flags k) then str "S-" else []).
