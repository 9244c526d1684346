(** Model of str_tokeniser_impl (clink/core/include/core/str_tokeniser.h, clink/core/src/str_tokeniser.cpp) over the
    str_iter of UtfModel.  [nextf] is str_iter::next at a position (next8 or next16 of UtfModel, with memory and end
    fixed); peek() is next() with the pointer put back (str_iter.h 84-90).  None: a read outside of the memory, or
    exhausted fuel. *)
From Verif Require Import Base UtfModel.

(** Conversion of a char to int32 (char is signed). *)
Definition schar (b : N) : Z := if (b <? 128)%N then Z.of_N b else (Z.of_N b - 256)%Z.

(** str_chr(const char*, int32) (str.h 30); the result is the character found. *)
Definition str_chr (s : list N) (c : N) : option N := if (c <? 256)%N then find (N.eqb c) s else None.

(** add_quote_pair (str_tokeniser.h 71-83): the pair's text without its NUL; quotes is a fixed_array of 4. *)
Definition add_quote_pair (quotes : list (N * N)) (pair : list N) : list (N * N) * bool :=
  match pair with
  | [] => (quotes, false)
  | l :: r => if Nat.ltb (length quotes) 4
              then (quotes ++ [(l, match r with x :: _ => x | [] => l end)], true)
              else (quotes, false)
  end.

(** get_right_quote (str_tokeniser.cpp 82-89). *)
Fixpoint get_right_quote (quotes : list (N * N)) (left : Z) : Z :=
  match quotes with
  | [] => 0%Z
  | (l, r) :: q => if (schar l =? left)%Z then schar r else get_right_quote q left
  end.

Section Tok.
Variable nextf : nat -> option (N * nat).
Variable delims : list N.
Variable quotes : list (N * N).

(** next_impl's first loop (96-105). *)
Fixpoint skip_delims (fuel : nat) (p : nat) (delim : N) : option (nat * N) :=
  match fuel with
  | O => None
  | S k =>
      match nextf p with
      | None => None
      | Some (c, p') =>
          if (c =? 0)%N then Some (p, delim)
          else match str_chr delims c with
               | None => Some (p, delim)
               | Some d => skip_delims k p' d
               end
      end
  end.

(** next_impl's second loop (110-125). *)
Fixpoint take_token (fuel : nat) (p : nat) (quote_close : Z) : option nat :=
  match fuel with
  | O => None
  | S k =>
      match nextf p with
      | None => None
      | Some (c, p') =>
          if (c =? 0)%N then Some p
          else if negb (quote_close =? 0)%Z
               then take_token k p' (if (quote_close =? Z.of_N c)%Z then 0%Z else quote_close)
               else match str_chr delims c with
                    | Some _ => Some p
                    | None => take_token k p' (get_right_quote quotes (Z.of_N c))
                    end
      end
  end.

(** next_impl (92-138): (start, length), the uint8 of the str_token, and the iterator's new position.  255 is
    str_token::invalid_delim. *)
Definition next_impl (fuel p : nat) : option (nat * nat * N * nat) :=
  match skip_delims fuel p 0 with
  | None => None
  | Some (start, delim) =>
      match take_token fuel start 0 with
      | None => None
      | Some end_ => Some (start, end_ - start, (if Nat.eqb start end_ then 255 else delim)%N, end_)
      end
  end.

(** peek_delims (str_tokeniser.h 86-101). *)
Definition peek_delims (fuel p : nat) : option nat :=
  match skip_delims fuel p 0 with None => None | Some (q, _) => Some (q - p) end.

(** The loop every caller runs: while (str_token t = tokeniser.next(start, length)). *)
Fixpoint all_tokens (n fuel p : nat) : option (list (N * nat * nat)) :=
  match n with
  | O => None
  | S k =>
      match next_impl fuel p with
      | None => None
      | Some (start, len, d, p') =>
          if (d =? 255)%N then Some []
          else match all_tokens k fuel p' with
               | None => None
               | Some l => Some ((d, start, len) :: l)
               end
      end
  end.
End Tok.

(** The tokeniser on a memory holding the input: [wide] selects str_tokeniser_impl<wchar_t>. *)
Definition tokens (wide : bool) (mem : list N) (e : option nat) (delims : list N) (quotes : list (N * N)) (p : nat) :=
  let nextf := if wide then next16 mem e else next8 mem e in
  all_tokens nextf delims quotes (S (length mem)) (S (length mem)) p.
