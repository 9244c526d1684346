(** clink/terminal/src/wcwidth_iter.cpp: the characters of a text as they are displayed, and their widths.

    Pointers are the text that follows them, up to the end of the range or the NUL; str_iter::next is d8 (see EscModel).
    Where the combining marks' width matters (combining_mark_width_scope), it is 1: wcwidth is not called within
    consume_emoji_sequence, the only place where it is 0. *)
From Verif Require Import Base UtfModel UtfSpec UtfProofs.
Open Scope N_scope.

Section Wc.
(** g_color_emoji, wcwidth and the predicates of wcwidth.cpp 511-537 *)
Variable emoji_on : bool.
Variable wcw : N -> Z.
Variables is_vs is_unq is_emo : N -> bool.

(** wcwidth.h 52-58: m_chr_ptr, m_chr_end, m_next, m_iter, m_chr_wcwidth, m_emoji *)
Record wst := mkW { w_ptr : list N; w_end : list N; w_next : N; w_rest : list N; w_wid : Z; w_emo : bool }.
(** 37-42; also reset_pointer, 224-231 *)
Definition wreset (t : list N) : wst := let '(c, r) := d8 t in mkW t t c r 0 false.
(** m_chr_end = m_iter.get_pointer(); m_next = m_iter.next(); *)
Definition wadv (s : wst) : wst := let '(c, r) := d8 (w_rest s) in mkW (w_ptr s) (w_rest s) c r (w_wid s) (w_emo s).
Definition set_wid (w : Z) (s : wst) : wst := mkW (w_ptr s) (w_end s) (w_next s) (w_rest s) w (w_emo s).
Definition set_emo (s : wst) : wst := mkW (w_ptr s) (w_end s) (w_next s) (w_rest s) (w_wid s) true.
(** max<char32_t>(m_chr_wcwidth, 2); m_chr_wcwidth is never negative where it is used *)
Definition wide (s : wst) : wst := set_wid (Z.max (w_wid s) 2) s.

(** 177-213; [None]: out of fuel *)
Fixpoint consume (fuel : nat) (s : wst) : option wst :=
  match fuel with
  | O => None
  | S fuel =>
    if w_next s =? 0 then Some s
    else if is_vs (w_next s) then consume fuel (wide (wadv s))
    else if w_next s =? 8205 then
      let s := wide (wadv s) in
      if negb (is_emo (w_next s)) && negb (is_unq (w_next s)) && negb (w_next s =? 9792) && negb (w_next s =? 9794) then Some s
      else consume fuel (wadv s)
    else Some s
  end.
(** 154-172 *)
Fixpoint run (fuel : nat) (s : wst) : option wst :=
  match fuel with
  | O => None
  | S fuel =>
    if w_next s =? 0 then Some s
    else if negb (wcw (w_next s) =? 0)%Z then
      if emoji_on && is_vs (w_next s) then run fuel (wadv (set_emo (wide s))) else Some s
    else run fuel (wadv s)
  end.
Definition regional (c : N) : bool := (127462 <=? c) && (c <=? 127487).
(** 72-174: the character returned and the new state *)
Definition wnext (s : wst) : option (N * wst) :=
  let c := w_next s in
  let fuel := S (length (w_end s)) in
  if c =? 0 then Some (c, mkW (w_end s) (w_end s) (w_next s) (w_rest s) 0 false)
  else
    let s := wadv (mkW (w_end s) (w_end s) (w_next s) (w_rest s) (w_wid s) false) in
    let s := set_wid (wcw c) s in
    let ret o := match o with None => None | Some s => Some (c, s) end in
    if (wcw c <? 0)%Z then Some (c, s)
    else if emoji_on && negb (wcw c =? 0)%Z then
      if regional c && regional (w_next s) then Some (c, wadv (set_wid 2 (set_emo s)))
      else
        let unq := is_unq c in
        if unq || is_emo c then
          let s := if unq && is_vs (w_next s) then wide (wadv s)
                   else if (c =? 12336) || (c =? 12349) || (c =? 12951) || (c =? 12953) then wide s else s in
          ret (match consume fuel s with None => None | Some s => Some (set_emo s) end)
        else if is_vs c then ret (match consume fuel (wide s) with None => None | Some s => Some (set_emo s) end)
        else ret (run fuel s)
    else ret (run fuel s).
(** 217-221 *)
Definition wunnext (s : wst) : wst := wreset (w_ptr s).
(** 234-243 *)
Definition wmore (s : wst) : bool := (length (w_rest s) <? length (w_end s))%nat || negb (match w_rest s with [] => true | _ => false end).
Definition wlength (s : wst) : nat := (length (w_rest s) + (length (w_end s) - length (w_rest s)))%nat.

(** A display character: character_pointer and character_length, character_wcwidth_signed, character_is_emoji *)
Definition glyph := (list N * Z * bool)%type.
Definition wglyph (s : wst) : glyph := (firstn (length (w_ptr s) - length (w_end s)) (w_ptr s), w_wid s, w_emo s).
(** while (iter.next()) ...: the display characters, and the pointer afterwards *)
Fixpoint wspans (fuel : nat) (s : wst) : option (list glyph * list N) :=
  match fuel with
  | O => None
  | S fuel =>
    match wnext s with
    | None => None
    | Some (c, s) => if c =? 0 then Some ([], w_end s) else match wspans fuel s with None => None | Some (l, e) => Some (wglyph s :: l, e) end
    end
  end.
Definition glyphs (t : list N) : option (list glyph * list N) := wspans (S (length t)) (wreset t).
(** wcwidth.h 46-47 *)
Definition onectrl (g : glyph) : Z := let '(_, w, _) := g in if (w <? 0)%Z then 1%Z else w.
Definition twoctrl (g : glyph) : Z := let '(_, w, _) := g in if (w <? 0)%Z then 2%Z else w.
(** 10-32 *)
Definition wcswidth (t : list N) : option Z := match glyphs t with None => None | Some (l, _) => Some (fold_right Z.add 0%Z (map onectrl l)) end.
Definition wcswidth_expandctrl (t : list N) : option Z := match glyphs t with None => None | Some (l, _) => Some (fold_right Z.add 0%Z (map twoctrl l)) end.
End Wc.

