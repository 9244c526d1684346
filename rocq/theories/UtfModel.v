(** Model of str_iter (clink/core/include/core/str_iter.h, clink/core/src/str_iter.cpp), of the conversions between
    UTF-8 and UTF-16 (clink/core/src/str_convert.cpp) and of char_count (clink/core/src/str.cpp 143-166).

    Units (char or wchar_t, unsigned) are numbers; memory is a list of units and a read or write outside of it is the
    outcome None (which also stands for exhausted fuel).  int32 arithmetic is not wrapped: c21 shows that all values stay
    below 2^21 (UTF-8) resp. 2^26 (UTF-16). *)
From Verif Require Import Base.

Section Iter.
Variable mem : list N.

(** str_iter_impl::more (str_iter.h 93-96).  [e] is m_end; None is the m_end = s - 1 of len = -1 (31-35), which m_ptr,
    only ever moving forward, never equals. *)
Definition more (e : option nat) (p : nat) : option bool :=
  let rd := match nth_error mem p with Some u => Some (negb (u =? 0)%N) | None => None end in
  match e with
  | Some e' => if Nat.eqb p e' then Some false else rd
  | None => rd
  end.

(** str_iter_impl<char>::next (str_iter.cpp 9-40): the loop (18-37), entered after more() returned true. *)
Fixpoint next8_loop (fuel : nat) (e : option nat) (p : nat) (ax : N) (el : nat) : option (N * nat) :=
  match fuel with
  | O => None
  | S k =>
      match nth_error mem p with
      | None => None
      | Some c =>
          let p := S p in
          let ax := N.lor (N.shiftl ax 6) (N.land c 127) in
          let again ax el := match more e p with
                             | Some true => next8_loop k e p ax el
                             | Some false => Some (0%N, p)
                             | None => None
                             end in
          match el with
          | S el' => again ax el'
          | O =>
              if (N.land c 192 <? 192)%N then Some (ax, p)
              else
                let el := if (N.land c 32 =? 0)%N then 0 else if (N.land c 16 =? 0)%N then 1 else 2 in
                again (N.land ax (N.shiftr 31 (N.of_nat el))) el
          end
      end
  end.

Definition next8 (e : option nat) (p : nat) : option (N * nat) :=
  match more e p with
  | Some true => next8_loop (S (length mem)) e p 0 0
  | Some false => Some (0%N, p)
  | None => None
  end.

(** str_iter_impl<wchar_t>::next (str_iter.cpp 44-77).  c = ax + c - 0x35fdc00 is done in Z. *)
Fixpoint next16_loop (fuel : nat) (e : option nat) (p : nat) (ax : N) : option (N * nat) :=
  match fuel with
  | O => None
  | S k =>
      let stop p := Some ((if (ax =? 0)%N then 0 else 65533)%N, p) in
      match more e p with
      | None => None
      | Some false => stop p
      | Some true =>
          match nth_error mem p with
          | None => None
          | Some c =>
              let p := S p in
              if (c =? 0)%N then stop p
              else if (N.land c 64512 =? 55296)%N then
                match more e p with
                | None => None
                | Some false => Some (65533%N, p)
                | Some true =>
                    match nth_error mem p with
                    | None => None
                    | Some d => if (N.land d 64512 =? 56320)%N then next16_loop k e p (N.shiftl c 10)
                                else Some (65533%N, p)
                    end
                end
              else if (N.land c 64512 =? 56320)%N then
                if (ax <? 1024)%N then Some (65533%N, p)
                else Some (Z.to_N (Z.of_N ax + Z.of_N c - 56613888), p)
              else if (ax =? 0)%N then Some (c, p) else Some (65533%N, p)
          end
      end
  end.

Definition next16 (e : option nat) (p : nat) : option (N * nat) := next16_loop (S (length mem)) e p 0.

End Iter.

(** ** builder (str_convert.cpp 13-61) *)

(** [b_buf] is the target memory from [start] on, None for a null pointer (then write only counts); [b_max] the
    constructor's max_length.  Both pointers are offsets from [start], so end = max_length - 1. *)
Record builder := mkB { b_buf : option (list N); b_w : nat; b_max : nat }.

Definition b_truncated (b : builder) : bool :=
  match b_buf b with None => false | Some _ => Nat.leb (b_max b) (S (b_w b)) end.

(** Store one unit; outside of the target memory: None. *)
Definition put (l : list N) (i : nat) (u : N) : option (list N) :=
  if Nat.ltb i (length l) then Some (firstn i l ++ u :: skipn (S i) l) else None.

(** operator << for one unit (43-46, 55-58); [lim] is 256 or 65536, for the conversion to TYPE. *)
Definition b_put (lim : N) (b : builder) (v : N) : option builder :=
  match b_buf b with
  | None => Some (mkB None (S (b_w b)) (b_max b))
  | Some l =>
      if Nat.ltb (S (b_w b)) (b_max b) then
        match put l (b_w b) (v mod lim) with
        | Some l' => Some (mkB (Some l') (S (b_w b)) (b_max b))
        | None => None
        end
      else Some b
  end.

Fixpoint b_puts (lim : N) (b : builder) (vs : list N) : option builder :=
  match vs with
  | [] => Some b
  | v :: vs' => match b_put lim b v with Some b' => b_puts lim b' vs' | None => None end
  end.

(** The values passed to operator << for one unit each, by operator << (int32) of builder<wchar_t> (37-49): code points
    above 0xffff are split once; the parts of what next() returns (below 2^21) are never above 0xffff. *)
Definition split16 (v : N) : list N :=
  if (65535 <? v)%N then [N.shiftr v 10 + 55232; N.land v 1023 + 56320]%N else [v].

(** Destructor (17). *)
Definition b_done (b : builder) : option (nat * option (list N)) :=
  match b_buf b with
  | None => Some (b_w b, None)
  | Some l => if Nat.leb 1 (b_max b) then
                match put l (b_w b) 0%N with Some l' => Some (b_w b, Some l') | None => None end
              else Some (b_w b, Some l)
  end.

(** ** to_utf16 (206-212) and to_utf8 (98-128) *)

(** The loop of both conversions: [nextf] is iter.next(), [spl] what is passed to operator << for one character,
    [lim] the number of values of the target type. *)
Fixpoint conv_loop (nextf : nat -> option (N * nat)) (spl : N -> list N) (lim : N) (fuel : nat) (b : builder) (p : nat)
  : option (builder * nat) :=
  match fuel with
  | O => None
  | S k =>
      if b_truncated b then Some (b, p)
      else match nextf p with
           | None => None
           | Some (c, p') =>
               if (c =? 0)%N then Some (b, p')
               else match b_puts lim b (spl c) with
                    | Some b' => conv_loop nextf spl lim k b' p'
                    | None => None
                    end
           end
  end.

(** The bytes of one code point (103-125), before the conversion to char. *)
Definition split8 (c : N) : list N :=
  if (c <? 128)%N then [c]
  else
    let n := (2 + (if 2048 <=? c then 1 else 0) + (if 65536 <=? c then 1 else 0))%N in
    let lo x := N.land x 63 in
    let tl4 := if (n =? 4)%N then [lo c] else [] in
    let c := if (n =? 4)%N then N.shiftr c 6 else c in
    let tl3 := if (3 <=? n)%N then [lo c] else [] in
    let c := if (3 <=? n)%N then N.shiftr c 6 else c in
    let tl2 := [lo c] in
    let c := N.shiftr c 6 in
    map (fun x => N.lor x 128) (N.lor (N.land c 31) (N.shiftr 4032 (n - 2) mod 256) :: tl2 ++ tl3 ++ tl4).

Section Convert.
Variable mem : list N.

(** Number of units written, target memory, new position of the iterator. *)
Definition convert (nextf : nat -> option (N * nat)) (spl : N -> list N) (lim : N) (out : option (list N)) (max : nat) (p : nat)
  : option (nat * option (list N) * nat) :=
  match conv_loop nextf spl lim (S (length mem)) (mkB out 0 max) p with
  | Some (b, p') => match b_done b with Some r => Some (r, p') | None => None end
  | None => None
  end.

Definition to_utf16 (out : option (list N)) (max : nat) (e : option nat) (p : nat) :=
  convert (next8 mem e) split16 65536 out max p.
Definition to_utf8 (out : option (list N)) (max : nat) (e : option nat) (p : nat) :=
  convert (next16 mem e) split8 256 out max p.

(** ** char_count (str.cpp 143-166) *)
Fixpoint count8 (fuel : nat) (p : nat) (n : nat) : option nat :=
  match fuel with
  | O => None
  | S k => match nth_error mem p with
           | None => None
           | Some c => if (c =? 0)%N then Some n
                       else count8 k (S p) (if (N.land c 192 =? 128)%N then n else S n)
           end
  end.

Fixpoint count16 (fuel : nat) (p : nat) (n : nat) : option nat :=
  match fuel with
  | O => None
  | S k => match nth_error mem p with
           | None => None
           | Some c =>
               if (c =? 0)%N then Some n
               else if (N.land c 64512 =? 55296)%N then
                 match nth_error mem (S p) with
                 | None => None
                 | Some d => count16 k (if (N.land d 64512 =? 56320)%N then S (S p) else S p) (S n)
                 end
               else count16 k (S p) (S n)
           end
  end.
Definition char_count8 (p : nat) : option nat := count8 (S (length mem)) p 0.
Definition char_count16 (p : nat) : option nat := count16 (S (length mem)) p 0.
End Convert.
