(** Macros as dumped in the form for .inputrc (clink-dump-macros with a numeric argument), and what such a line binds.
    Modelled: _rl_untranslate_macro_value (readline/readline/bind.c:733-784) as called by rl_help.cpp:809, the line
    that funcmac_dumper_internal writes for a macro (clink/lib/src/rl/rl_help.cpp:1722-1771), and how rl_parse_and_bind
    and rl_macro_bind read it (bind.c:1746-1779, 1850-1880, 1897-1933, 366-380).  As in KnModel for keys; macros in
    single quotes are left out. *)
From Verif Require Import Base KnModel.
Local Open Scope N_scope.

(** chardefs.h:64, 108 *)
Definition UNCTRL (c : N) : N := upper (N.lor c 64).
Definition lower (c : N) : N := if (65 <=? c) && (c <=? 90) then c + 32 else c.

(** bind.c:742-780: one byte, without use_escapes *)
Definition macro_key (b : N) : list N :=
  let meta := (127 <? b) in
  let c := if meta then UNMETA b else b in
  let '(p, c') := if c =? ESC then ([BACKSLASH], 101)
                  else if c <? 32 then ([BACKSLASH; 67; 45], lower (UNCTRL c))
                  else if c =? RUBOUT then ([BACKSLASH; 67; 45], 63)
                  else ([], c) in
  (if meta then [BACKSLASH; 77; 45] else []) ++ p ++ (if (c' =? BACKSLASH) || (c' =? QUOTE) then [BACKSLASH] else []) ++ [c'].
(** bind.c:733-784 *)
Definition macro_text (m : list N) : list N := flat_map macro_key m.

(** rl_help.cpp:1754-1768: the raw name, a colon, spaces, the text in quotes, and perhaps spaces and a comment.  How
    many spaces there are depends on the width of what is before them, here it is any number. *)
Definition dump_line (ks m : list N) (pad : nat) (comment : option (nat * list N)) : list N :=
  raw_name ks ++ 58 :: repeat 32 pad ++ 32 :: QUOTE :: macro_text m ++ QUOTE ::
  match comment with Some (pad2, t) => repeat 32 pad2 ++ [32; 32; 35; 32] ++ t | None => [] end.

Definition whitespace (c : N) : bool := (c =? 32) || (c =? 9).
Fixpoint skip_white (s : list N) : list N := match s with c :: r => if whitespace c then skip_white r else s | [] => [] end.
Fixpoint take_black (s : list N) : list N := match s with c :: r => if whitespace c then [] else c :: take_black r | [] => [] end.
(** bind.c:1926-1930 *)
Definition strip_quote (s : list N) : list N := match rev s with c :: r => if c =? QUOTE then rev r else s | [] => s end.

(** bind.c:1850-1880, 1923-1932: the macro at the end of a line, after the separator *)
Definition macro_of (s : list N) : option (list N) :=
  match skip_white s with
  | q :: r =>
      if q =? QUOTE then
        match skip_to_delim false r with
        | [] => None
        | d :: a => Some (translate false false (strip_quote (firstn (length r - length (d :: a)) r ++ d :: take_black a)))
        end
      else None
  | [] => None
  end.
(** The keys and the macro that a line binds. *)
Definition bound_macro (string : list N) : option (list N * list N) :=
  match bound_key string, macro_of (drop1 (skip_to_sep (drop1 (skip_to_delim false (drop1 string))))) with
  | Some k, Some m => Some (k, m)
  | _, _ => None
  end.
