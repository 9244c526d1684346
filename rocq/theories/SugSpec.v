(** What accepting a suggestion means (independent of SugModel): texts are sequences of characters. *)
From Verif Require Import Base UtfSpec CmpSpec.

(** The bytes of a text. *)
Definition enc (vs : list N) : list N := flat_map utf8 vs.

Section Spec.
(** The representative of a character under the current case and accent settings. *)
Variable k : N -> N.

(** Two texts of the same representatives. *)
Definition alike (t p : list N) : Prop := Forall2 (fun a b => k a = k b) t p.

(** A text without runs of path separators beginning with a slash. *)
Fixpoint plain (t : list N) : Prop :=
  match t with
  | [] => True
  | c :: r => (k c = 47%N -> match r with d :: _ => ~ sep d | [] => True end) /\ plain r
  end.
End Spec.

Definition blank (c : N) : Prop := c = 32%N \/ c = 9%N.
Definition quote_mark : N := 34%N.

(** [word_from q t w r]: reading [t], inside of quotes if [q], the word [w] ends before [r]: at a blank outside of
    quotes or at the end of the text. *)
Inductive word_from : bool -> list N -> list N -> list N -> Prop :=
| W_end q : word_from q [] [] []
| W_blank c r : blank c -> word_from false (c :: r) [] (c :: r)
| W_quote q t w r : word_from (negb q) t w r -> word_from q (quote_mark :: t) (quote_mark :: w) r
| W_char q c t w r : c <> quote_mark -> q = true \/ ~ blank c -> word_from q t w r ->
    word_from q (c :: t) (c :: w) r.

(** The next full word of [t]: blanks, and a word. *)
Definition full_word (q : bool) (t w r : list N) : Prop :=
  exists bl w1, w = bl ++ w1 /\ t = bl ++ w1 ++ r /\ Forall blank bl /\
    match w1 ++ r with c :: _ => ~ blank c | [] => True end /\ word_from q (w1 ++ r) w1 r.

(** Whether a text has an odd number of quotes. *)
Definition odd_quotes (t : list N) : bool := Nat.odd (count_occ N.eq_dec t quote_mark).

(** Whether the end of a line is inside of quotes: [w] is the offset of the line's last word, [t] the text behind it that
    may be replaced.  A quote directly before the word counts, and the quotes in [t]. *)
Definition inside (line : list N) (w : nat) (t : list N) : bool :=
  xorb (match w with O => false | S j => (nth j (enc line) 0 =? quote_mark)%N end) (odd_quotes t).
