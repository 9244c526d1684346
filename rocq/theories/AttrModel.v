(** clink/terminal/src/attributes.cpp and attributes.h: text attributes packed into 64 bits; the SGR control function
    of ecma48_terminal_out.cpp 291-423; clink/terminal/src/printer.cpp 21-85, 133-208. *)
From Verif Require Import Base.
Open Scope N_scope.

(** Bit fields of m_state (attributes.h 100-127; bit fields are allotted from the low end, as the supported compilers
    do): m_fg 0-15 (r 0-4, g 5-9, b 10-14, is_rgb 15), m_bg 16-31 likewise, m_bold 32, m_underline 33, m_reverse 34,
    m_flags 48-55 (fg 48, bg 49, bold 50, underline 51, reverse 52). *)
Definition field (lo w s : N) : N := N.land (N.shiftr s lo) (N.ones w).
Definition put (lo w v s : N) : N := N.lor (N.ldiff s (N.shiftl (N.ones w) lo)) (N.shiftl (N.land v (N.ones w)) lo).

Definition m_fg := field 0 16.
Definition m_bg := field 16 16.
Definition m_bold := field 32 1.
Definition m_underline := field 33 1.
Definition m_reverse := field 34 1.
Definition f_all := field 48 8.
Definition f_fg := field 48 1.
Definition f_bg := field 49 1.
Definition f_bold := field 50 1.
Definition f_underline := field 51 1.
Definition f_reverse := field 52 1.

(** attributes.cpp 10-13 *)
Definition default_code : N := 231.
(** 29-32 *)
Definition empty : N := 0.
(** 97-108 *)
Definition reset_fg (s : N) : N := put 0 16 default_code (put 48 1 1 s).
Definition reset_bg (s : N) : N := put 16 16 default_code (put 49 1 1 s).
(** 111-130; the argument is a uint8 *)
Definition set_fg (v s : N) : N := let v := v mod 256 in let v := if v =? default_code then 15 else v in put 0 16 v (put 48 1 1 s).
Definition set_bg (v s : N) : N := let v := v mod 256 in let v := if v =? default_code then 15 else v in put 16 16 v (put 49 1 1 s).
(** 133-150 *)
Definition set_fg_rgb (r g b s : N) : N :=
  put 15 1 1 (put 10 5 (N.shiftr (b mod 256) 3) (put 5 5 (N.shiftr (g mod 256) 3) (put 0 5 (N.shiftr (r mod 256) 3) (put 48 1 1 s)))).
Definition set_bg_rgb (r g b s : N) : N :=
  put 31 1 1 (put 26 5 (N.shiftr (b mod 256) 3) (put 21 5 (N.shiftr (g mod 256) 3) (put 16 5 (N.shiftr (r mod 256) 3) (put 49 1 1 s)))).
(** 153-171 *)
Definition set_bold (b : bool) (s : N) : N := put 32 1 (N.b2n b) (put 50 1 1 s).
Definition set_underline (b : bool) (s : N) : N := put 33 1 (N.b2n b) (put 51 1 1 s).
Definition set_reverse (b : bool) (s : N) : N := put 34 1 (N.b2n b) (put 52 1 1 s).
(** 35-43 *)
Definition defaults : N := set_reverse false (set_underline false (set_bold false (reset_bg (reset_fg empty)))).

(** 46-57 *)
Definition eqb (a b : N) : bool :=
  let cmp f v := if N.land (f a) (f b) =? 0 then true else v a =? v b in
  cmp f_fg m_fg && cmp f_bg m_bg && cmp f_bold m_bold && cmp f_underline m_underline && cmp f_reverse m_reverse.

Definition lnot64 (x : N) : N := N.lxor x (N.ones 64).
(** 60-76 *)
Definition merge (first second : N) : N :=
  let mask := put 48 8 (N.ones 8) 0 in
  let mask := put 0 16 (if f_fg second =? 0 then 0 else N.ones 16) mask in
  let mask := put 16 16 (if f_bg second =? 0 then 0 else N.ones 16) mask in
  let mask := put 32 1 (f_bold second) mask in
  let mask := put 33 1 (f_underline second) mask in
  let mask := put 34 1 (f_reverse second) mask in
  let out := N.land first (lnot64 mask) in
  let out := N.lor out (N.land second mask) in
  put 48 8 (N.lor (f_all out) (f_all first)) out.

(** 79-92: the other bits of "changed" are not initialised *)
Definition diff (junk from to : N) : N :=
  let bit b := N.b2n b in
  let changed := put 0 1 (bit (negb (m_fg to =? m_fg from))) junk in
  let changed := put 1 1 (bit (negb (m_bg to =? m_bg from))) changed in
  let changed := put 2 1 (bit (negb (m_bold to =? m_bold from))) changed in
  let changed := put 3 1 (bit (negb (m_underline to =? m_underline from))) changed in
  let changed := put 4 1 (bit (negb (m_reverse to =? m_reverse from))) changed in
  put 48 8 (N.land (f_all to) changed) to.

(** 174-201: an attribute: set, value; for a color also whether it is the default *)
Definition get_fg (s : N) : bool * N * bool := (N.odd (f_fg s), m_fg s, m_fg s =? default_code).
Definition get_bg (s : N) : bool * N * bool := (N.odd (f_bg s), m_bg s, m_bg s =? default_code).
Definition get_bold (s : N) : bool * bool := (N.odd (f_bold s), N.odd (m_bold s)).
Definition get_underline (s : N) : bool * bool := (N.odd (f_underline s), N.odd (m_underline s)).
Definition get_reverse (s : N) : bool * bool := (N.odd (f_reverse s), N.odd (m_reverse s)).
(** 18-23 *)
Definition as_888 (c : N) : N * N * N :=
  let ch x := N.lor (N.shiftl x 3) (N.land x 7) mod 256 in
  (ch (field 0 5 c), ch (field 5 5 c), ch (field 10 5 c)).

(** ecma48_terminal_out.cpp 22 *)
Definition rgb_cube : list N := [0; 95; 135; 175; 215; 255].
(** 300-420: the loop over the parameters from index i; n is csi.param_count - i; [None]: a parameter that is not
    there is read *)
Fixpoint sgr_loop (fuel : nat) (ps : list N) (i : nat) (attr : N) : option N :=
  match fuel with
  | O => None
  | S fuel =>
    if (length ps <=? i)%nat then Some attr else
    let n := (length ps - i)%nat in
    match nth_error ps i with
    | None => None
    | Some param =>
      let next := sgr_loop fuel ps (S i) in
      if param =? 0 then next defaults
      else if param =? 49 then next (reset_bg attr)
      else if param =? 39 then next (reset_fg attr)
      else if (param =? 1) || (param =? 2) || (param =? 22) then next (set_bold (param =? 1) attr)
      else if (param =? 4) || (param =? 24) then next (set_underline (param =? 4) attr)
      else if ((30 <=? param) && (param <=? 37)) || ((90 <=? param) && (param <=? 97)) then
        next (set_fg (N.land (param + (if 90 <=? param then 14 else 2)) 15) attr)
      else if ((40 <=? param) && (param <=? 47)) || ((100 <=? param) && (param <=? 107)) then
        next (set_bg (N.land (param + (if 100 <=? param then 4 else 8)) 15) attr)
      else if (param =? 7) || (param =? 27) then next (set_reverse (param =? 7) attr)
      else if (param =? 38) || (param =? 48) then
        if (1 <? n)%nat then
          let i := S i in
          let n := (n - 1)%nat in
          let fg := param =? 38 in
          match nth_error ps i with
          | None => None
          | Some type =>
            if type =? 2 then
              if (3 <? n)%nat then
                match nth_error ps (i + 1), nth_error ps (i + 2), nth_error ps (i + 3) with
                | Some r, Some g, Some b => sgr_loop fuel ps (S (i + 3)) (if fg then set_fg_rgb r g b attr else set_bg_rgb r g b attr)
                | _, _, _ => None
                end
              else sgr_loop fuel ps (S (i + 3)) attr
            else if type =? 5 then
              if (1 <? n)%nat then
                match nth_error ps (i + 1) with
                | None => None
                | Some idx =>
                  let idx := idx mod 256 in
                  let attr' :=
                    if idx <? 16 then Some (if fg then set_fg idx attr else set_bg idx attr)
                    else if 232 <=? idx then
                      let gray := (8 + (idx - 232) * 10) mod 256 in
                      Some (if fg then set_fg_rgb gray gray gray attr else set_bg_rgb gray gray gray attr)
                    else
                      let idx := idx - 16 in
                      match nth_error rgb_cube (N.to_nat (idx / 6 / 6)), nth_error rgb_cube (N.to_nat (idx / 6 mod 6)), nth_error rgb_cube (N.to_nat (idx mod 6)) with
                      | Some r, Some g, Some b => Some (if fg then set_fg_rgb r g b attr else set_bg_rgb r g b attr)
                      | _, _, _ => None
                      end in
                  match attr' with None => None | Some attr => sgr_loop fuel ps (S (i + 1)) attr end
                end
              else sgr_loop fuel ps (S (i + 1)) attr
            else sgr_loop fuel ps (S i) attr
          end
        else next attr
      else next attr
    end
  end.
(** 291-423: what is passed to the screen *)
Definition sgr (ps : list N) : option N :=
  match ps with
  | [] => Some defaults
  | _ => sgr_loop (S (length ps)) ps 0 empty
  end.

(** ecma48_iter.cpp 98-144, the text of a CSI code (code points), up to max parameters.  [None]: a parameter overflows
    an int32.  The result: private use, parameters, intermediate, final. *)
Definition ir (v l r : N) : bool := (l <=? v) && (v <=? r).
Fixpoint csi_loop (t : list N) (max : nat) (param : N) (params : list N) (trailing : bool) (inter fin : N) : option (list N * N * N) :=
  match t with
  | [] => Some (if trailing && (length params <? max)%nat then params ++ [param] else params, inter, fin)
  | c :: t =>
    if c =? 0 then Some (if trailing && (length params <? max)%nat then params ++ [param] else params, inter, fin)
    else if ir c 48 59 then
      if c =? 59 then csi_loop t max 0 (if (length params <? max)%nat then params ++ [param] else params) true inter fin
      else if c =? 58 then csi_loop t max param params true inter fin
      else let p := param * 10 + (c - 48) in if p <? 2147483648 then csi_loop t max p params true inter fin else None
    else if ir c 32 47 then csi_loop t max param params trailing c fin
    else if negb (ir c 60 63) then csi_loop t max param params trailing inter c
    else csi_loop t max param params trailing inter fin
  end.
Definition decode_csi (t : list N) (max : nat) : option (bool * list N * N * N) :=
  let t := match t with 27 :: _ :: t => t | _ :: t => t | [] => [] end in
  let '(priv, t) := match t with c :: t' => if ir c 60 63 then (true, t') else (false, t) | [] => (false, []) end in
  match csi_loop t max 0 [] false 0 0 with None => None | Some (ps, i, f) => Some (priv, ps, i, f) end.

(** printer: attributes on the terminal, attributes wanted, m_nodiff; what is written *)
Record printer := mkP { p_set : N; p_next : N; p_nodiff : bool }.
(** printer.cpp 28-33 *)
Definition p_new : printer := mkP defaults defaults false.
(** 133-138 *)
Definition p_set_attributes (a : N) (p : printer) : printer := mkP (p_set p) (merge (p_next p) a) (p_nodiff p).
(** 141-202: the parameters of the SGR that is written ([]: none is) *)
Definition p_params (junk : N) (p : printer) : list N :=
  let d := if p_nodiff p then p_next p else diff junk (p_set p) (p_next p) in
  let '(fs, fv, fd) := get_fg d in
  let '(bs, bv, bd) := get_bg d in
  (if fd && bd then [0] else
     (if fs then [if fd then 39 else (if 7 <? fv then 90 else 30) + N.land fv 7] else []) ++
     (if bs then [if bd then 49 else (if 7 <? bv then 100 else 40) + N.land bv 7] else [])) ++
  (let '(s, v) := get_bold d in if s then [if v then 1 else 22] else []) ++
  (let '(s, v) := get_underline d in if s then [if v then 4 else 24] else []).
Definition p_flush (junk : N) (p : printer) : list N * printer := (p_params junk p, mkP (p_next p) (p_next p) (p_nodiff p)).

(** What reaches the terminal. *)
Inductive pevent := ESgr (ps : list N) | EText (t : list N).
Definition sgr_event (ps : list N) : list pevent := match ps with [] => [] | _ => [ESgr ps] end.
(** printer.cpp 36-60 *)
Definition p_print (junk : N) (t : list N) (p : printer) : list pevent * printer :=
  match t with
  | [] => ([], p)
  | _ =>
    if eqb (p_next p) (p_set p) then ([EText t], p)
    else let '(ps, p') := p_flush junk p in (sgr_event ps ++ [EText t], p')
  end.
(** 63-69 *)
Definition p_print_attr (junk : N) (a : N) (t : list N) (p : printer) : list pevent * printer :=
  let prev := p_next p in
  let '(e1, p1) := p_print junk t (p_set_attributes a p) in
  let '(ps, p2) := p_flush junk (p_set_attributes prev p1) in
  (e1 ++ sgr_event ps, p2).
(** 72-83: [ps] is what the caller's SGR text says *)
Definition p_print_raw (junk : N) (ps : list N) (t : list N) (p : printer) : list pevent * printer :=
  let prev := p_next p in
  let '(e0, p0) := if eqb (p_next p) (p_set p) then ([], p) else let '(qs, p') := p_flush junk p in (sgr_event qs, p') in
  let '(e1, p1) := p_print junk t p0 in
  let '(qs, p2) := p_flush junk (p_set_attributes prev p1) in
  (e0 ++ [ESgr ps] ++ e1 ++ sgr_event qs, mkP (p_set p2) (p_next p2) true).
Inductive pop := OSet (a : N) | OPrint (t : list N) | OPrintAttr (a : N) (t : list N).
Definition p_op (junk : N) (p : printer) (o : pop) : list pevent * printer :=
  match o with
  | OSet a => ([], p_set_attributes a p)
  | OPrint t => p_print junk t p
  | OPrintAttr a t => p_print_attr junk a t p
  end.
Fixpoint p_run (junk : N) (p : printer) (os : list pop) : list pevent * printer :=
  match os with
  | [] => ([], p)
  | o :: os => let '(e, p1) := p_op junk p o in let '(e2, p2) := p_run junk p1 os in (e ++ e2, p2)
  end.
