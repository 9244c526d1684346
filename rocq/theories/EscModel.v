(** clink/terminal/src/ecma48_iter.cpp 275-541 and clink/terminal/include/terminal/ecma48_iter.h: splitting terminal
    output into plain text and control codes.

    Pointers into the text are the text that follows them.  str_iter::peek and next are d8 of UtfProofs (proved there
    to be what the iterator of UtfModel computes on NUL-free text); the end of the text and a NUL both read as 0. *)
From Verif Require Import Base UtfModel UtfSpec UtfProofs.

(** ecma48_iter.h 16-26 *)
Inductive est := SUnk | SChar | SEsc | SEscSt | SCsiP | SCsiF | SCmd | SChs.
Definition is_char (s : est) : bool := match s with SChar => true | _ => false end.
(** ecma48_iter.h 32-39 *)
Inductive ctype := TNone | TChars | TC0 | TC1 | TIcf.

(** ecma48_state (ecma48_iter.h 131-143) with its code's type and code value *)
Record estate := mkE { e_st : est; e_buf : list N; e_clr : bool; e_typ : ctype; e_cod : N }.
Definition set_st (s : estate) (x : est) : estate := mkE x (e_buf s) (e_clr s) (e_typ s) (e_cod s).
Definition set_code (s : estate) (t : ctype) (c : N) : estate := mkE (e_st s) (e_buf s) (e_clr s) t c.
(** ecma48_iter.cpp 89-93 *)
Definition reset (s : estate) : estate := mkE SUnk (e_buf s) true (e_typ s) (e_cod s).
(** ecma48_state(): the code's type and value are not initialised *)
Definition fresh (t : ctype) (c : N) : estate := mkE SUnk [] true t c.

(** 56-60: in_range(value, left, right) for value >= 0 *)
Definition in_range (v l r : N) : bool := ((l <=? v) && (v <=? r))%N.

(** 351-375: (done, state) *)
Definition next_c1 (s : estate) : bool * estate :=
  let c := N.lor (N.land (e_cod s) 31) 64 in
  let s := set_code s (e_typ s) c in
  if ((c =? 80) || (c =? 93) || (c =? 94) || (c =? 95))%N then (false, set_st s SCmd)
  else if (c =? 91)%N then (false, set_st s SCsiP)
  else if (c =? 88)%N then (false, set_st s SChs)
  else (true, s).

(** A step: done, state, text after the iterator, nesting, whether m_code.m_str was moved to the iterator. *)
Definition sres := (bool * estate * list N * nat * bool)%type.
Definition adv (t : list N) : list N := snd (d8 t).

(** 378-388 *)
Definition next_char (c : N) (s : estate) (t : list N) (n : nat) : sres :=
  if in_range c 0 31 then (true, set_code s TChars (e_cod s), t, n, false) else (false, s, adv t, n, false).
(** 391-402 *)
Definition next_char_str (c : N) (s : estate) (t : list N) (n : nat) : sres :=
  if (c =? 27)%N then (false, set_st s SEscSt, adv t, n, false) else ((c =? 156)%N, s, adv t, n, false).
(** 405-440 *)
Definition next_cmd_str (c : N) (s : estate) (t : list N) (n : nat) : sres :=
  if (c =? 27)%N then
    let t := adv t in
    let d := fst (d8 t) in
    if (d =? 93)%N then (false, s, t, S n, false)
    else if ((d =? 92)%N && (0 <? n)) then (false, s, t, n - 1, false)
    else (false, set_st s SEscSt, t, n, false)
  else if ((c =? 156) || (c =? 7))%N then
    if ((c =? 7)%N && (0 <? n)) then (false, s, adv t, n - 1, false) else (true, s, adv t, n, false)
  else if (in_range c 8 13 || (32 <=? c)%N) then (false, s, adv t, n, false)
  else (false, reset s, t, n, true).
(** 443-461 *)
Definition next_csi_f (c : N) (s : estate) (t : list N) (n : nat) : sres :=
  if in_range c 32 47 then (false, s, adv t, n, false)
  else if in_range c 64 126 then (true, s, adv t, n, false)
  else (false, reset s, t, n, true).
(** 464-474 *)
Definition next_csi_p (c : N) (s : estate) (t : list N) (n : nat) : sres :=
  if in_range c 48 63 then (false, s, adv t, n, false) else next_csi_f c (set_st s SCsiF) t n.
(** 477-497 *)
Definition next_esc (c : N) (s : estate) (t : list N) (n : nat) : sres :=
  if in_range c 64 95 then let '(b, s) := next_c1 (set_code s TC1 c) in (b, s, adv t, n, false)
  else if in_range c 96 127 then (true, set_code s TIcf c, adv t, n, false)
  else (false, set_st s SChar, adv t, n, false).
(** 499-513 *)
Definition next_esc_st (c : N) (s : estate) (t : list N) (n : nat) : sres :=
  if (c =? 92)%N then (true, s, adv t, n, false) else (false, reset s, t, 0, true).
(** 516-541 *)
Definition next_unknown (c : N) (s : estate) (t : list N) (n : nat) : sres :=
  if (c =? 27)%N then (false, set_st s SEsc, adv t, n, false)
  else if in_range c 0 31 then (true, set_code s TC0 c, adv t, n, false)
  else if in_range c 128 159 then let '(b, s) := next_c1 (set_code s TC1 c) in (b, s, adv t, n, false)
  else (false, set_st (set_code s TChars (e_cod s)) SChar, adv t, n, false).

(** 306-316 *)
Definition estep (c : N) (s : estate) (t : list N) (n : nat) : sres :=
  match e_st s with
  | SChar => next_char c s t n
  | SChs => next_char_str c s t n
  | SCmd => next_cmd_str c s t n
  | SCsiF => next_csi_f c s t n
  | SCsiP => next_csi_p c s t n
  | SEsc => next_esc c s t n
  | SEscSt => next_esc_st c s t n
  | SUnk => next_unknown c s t n
  end.

(** what lies between two pointers, the second one further on *)
Definition between (a b : list N) : list N := firstn (length a - length b) a.

(** 318-328 *)
Definition save (s : estate) (copy t : list N) : estate * list N :=
  if is_char (e_st s) then (s, copy)
  else (mkE (e_st s) ((if e_clr s then [] else e_buf s) ++ between copy t) false (e_typ s) (e_cod s), t).

(** A code: type, value, text.  m_length (ecma48_iter.h 112) is an unsigned short. *)
Definition ecode := (ctype * N * list N)%type.
Definition len16 (x : list N) : N := (N.of_nat (length x) mod 65536)%N.

(** 284-348: next().  [Some (Some code)]: a code; [Some None]: the end, with length 0; [None]: out of fuel. *)
Fixpoint nloop (fuel : nat) (s : estate) (n : nat) (t start copy : list N) : option (option ecode * estate * list N) :=
  match fuel with
  | 0 => None
  | S fuel =>
    let c := fst (d8 t) in
    let finish s t := 
      let x := if is_char (e_st s) then between start t else e_buf s in
      Some (Some (e_typ s, e_cod s, x), reset s, t) in
    if (c =? 0)%N then
      if is_char (e_st s) then finish s t else Some (None, s, t)
    else
      let '(done, s1, t1, n1, moved) := estep c s t n in
      let start := if moved then t1 else start in
      let '(s2, copy) := save s1 copy t1 in
      if done then
        let x := if is_char (e_st s2) then between start t1 else e_buf s2 in
        Some (Some (e_typ s2, e_cod s2, x), reset s2, t1)
      else nloop fuel s2 n1 t1 start copy
  end.
Definition enext (s : estate) (t : list N) : option (option ecode * estate * list N) :=
  nloop (2 * length t + 2) s 0 t t t.

(** get_pointer(), get_length(): what a caller sees of the text *)
Definition seen (x : list N) : list N := firstn (N.to_nat (len16 x)) x.
(** while (const ecma48_code& code = iter.next()) ...: stops at a code of length 0 *)
Fixpoint codes (fuel : nat) (s : estate) (t : list N) : option (list ecode * estate) :=
  match fuel with
  | 0 => None
  | S fuel =>
    match enext s t with
    | None => None
    | Some (None, s1, _) => Some ([], s1)
    | Some (Some (ty, c, x), s1, t1) =>
      if (len16 x =? 0)%N then Some ([], s1)
      else match codes fuel s1 t1 with None => None | Some (l, s2) => Some ((ty, c, seen x) :: l, s2) end
    end
  end.
Definition parse (s : estate) (t : list N) : option (list ecode * estate) := codes (S (length t)) s t.
