(** Raw names of key sequences, as listed by clink-show-help-raw, and what they mean in .inputrc.
    Modelled: translate_keyseq for raw names (clink/lib/src/rl/rl_help.cpp:565-632), rl_translate_keyseq
    (readline/readline/bind.c:520-661, with convert-meta off as rl_module.cpp:2080 has it), _rl_skip_to_delim
    (bind.c:1680-1706) and the part of rl_parse_and_bind that finds the key (bind.c:1746-1779, 1889-1921).
    Bytes are numbers below 256; a C string ends where the list ends.  Simplified: upper case is that of ASCII; the
    sort order and friendly names are left out. *)
From Verif Require Import Base.
Local Open Scope N_scope.

Definition ESC : N := 27.
Definition RUBOUT : N := 127.
Definition BACKSLASH : N := 92.
Definition QUOTE : N := 34.

(** rl_help.cpp:567 *)
Definition ctrl_map : list N := map N_of_ascii (lit "@abcdefghijklmnopqrstuvwxyz[\]^_").

(** rl_help.cpp:594-626: what is written for one byte *)
Definition raw_key (k : N) : list N :=
  if k =? ESC then [BACKSLASH; 101]
  else if k <? 32 then [BACKSLASH; 67; 45; nth (N.to_nat k) ctrl_map 0]
  else if k =? RUBOUT then [BACKSLASH; 67; 45; 63]
  else (if (k =? BACKSLASH) || (k =? QUOTE) then [BACKSLASH] else []) ++ [k].

(** rl_help.cpp:578-632 *)
Definition raw_name (ks : list N) : list N :=
  QUOTE :: match ks with
  | [e; k] => if (e =? ESC) && negb (k =? ESC) then [BACKSLASH; 77; 45] ++ raw_key k else flat_map raw_key ks
  | _ => flat_map raw_key ks
  end ++ [QUOTE].

(** chardefs.h:60, 63, 107 *)
Definition upper (c : N) : N := if (97 <=? c) && (c <=? 122) then c - 32 else c.
Definition CTRL (c : N) : N := N.land c 31.
Definition UNMETA (c : N) : N := N.land c 127.

(** bind.c:616-648 *)
Definition emit (has_control has_meta : bool) (c : N) : list N :=
  let c := if has_control then (if c =? 63 then RUBOUT else CTRL (upper c)) else c in
  if has_meta then [ESC; UNMETA c] else [c].

Definition is_octal (c : N) : bool := (48 <=? c) && (c <=? 55).
Definition is_hex (c : N) : bool := ((48 <=? c) && (c <=? 57)) || ((65 <=? c) && (c <=? 70)) || ((97 <=? c) && (c <=? 102)).
Definition hex_value (c : N) : N := if c <=? 57 then c - 48 else if c <=? 70 then c - 55 else c - 87.
(** bind.c:596-598, 603-607: at most two digits *)
Definition after_digits (is : N -> bool) (l : list N) : list N :=
  match l with
  | a :: r => if is a then match r with b :: r2 => if is b then r2 else r | [] => r end else l
  | [] => l
  end.
Definition digits_value (is : N -> bool) (base : N) (val : N -> N) (c : N) (l : list N) : N :=
  match l with
  | a :: r => if is a then match r with b :: _ => if is b then ((c * base + val a) * base + val b) mod 256 else (c * base + val a) mod 256 | [] => (c * base + val a) mod 256 end else c
  | [] => c
  end.
(** bind.c:561-613: the character after a backslash *)
Definition escaped (c : N) (l : list N) : N :=
  if c =? 97 then 7 else if c =? 98 then 8 else if c =? 100 then RUBOUT else if c =? 101 then ESC else if c =? 102 then 12
  else if c =? 110 then 10 else if c =? 114 then 13 else if c =? 116 then 9 else if c =? 118 then 11
  else if is_octal c then digits_value is_octal 8 (fun d => d - 48) (c - 48) l
  else if c =? 120 then match l with a :: _ => if is_hex a then digits_value is_hex 16 hex_value 0 l else 120 | [] => 120 end
  else c.
Definition after_escaped (c : N) (l : list N) : list N :=
  if is_octal c then after_digits is_octal l else if c =? 120 then after_digits is_hex l else l.
Definition dash (l : list N) : bool := match l with c :: _ => c =? 45 | [] => false end.
Definition drop1 (l : list N) : list N := match l with [] => l | _ :: r => r end.

(** bind.c:520-661 rl_translate_keyseq *)
Fixpoint translate (has_control has_meta : bool) (s : list N) : list N :=
  match s with
  | [] => if has_control || has_meta then emit has_control has_meta 0 else []
  | c :: r =>
      if c =? BACKSLASH then
        match r with
        | [] => emit has_control has_meta c ++ translate false false r
        | d :: r1 =>
            if (d =? 67) && dash r1 then translate true has_meta (drop1 r1)
            else if (d =? 77) && dash r1 then translate has_control true (drop1 r1)
            else emit has_control has_meta (escaped d r1) ++ translate false false (after_escaped d r1)
        end
      else emit has_control has_meta c ++ translate false false r
  end.

(** bind.c:1680-1706: the string from the delimiter on *)
Fixpoint skip_to_delim (passc : bool) (s : list N) : list N :=
  match s with
  | [] => []
  | c :: r => if passc then skip_to_delim false r else if c =? BACKSLASH then skip_to_delim true r else if c =? QUOTE then s else skip_to_delim false r
  end.
(** bind.c:1761: the string from the separator on *)
Fixpoint skip_to_sep (s : list N) : list N :=
  match s with
  | [] => []
  | c :: r => if (c =? 58) || (c =? 32) || (c =? 9) then s else skip_to_sep r
  end.
(** bind.c:1903-1921: what is between the quotes.  (The string was cut at the separator, which comes after the closing
    quote, so that makes no difference.) *)
Fixpoint between (passc : bool) (s : list N) : list N :=
  match s with
  | [] => []
  | c :: r => if passc || (c =? BACKSLASH) then c :: between (negb passc) r else if c =? QUOTE then [] else c :: between passc r
  end.
(** bind.c:1713-1921: the key sequence that a line of .inputrc binds, for lines that begin with a quote. *)
Definition bound_key (string : list N) : option (list N) :=
  match string with
  | q :: s =>
      if q =? QUOTE then
        match skip_to_delim false s with
        | [] => None
        | _ :: a =>
            match skip_to_sep a with
            | [] => None
            | c :: a' => if (c =? 58) && match a' with e :: _ => e =? 61 | [] => false end then None else Some (translate false false (between false s))
            end
        end
      else None
  | [] => None
  end.
