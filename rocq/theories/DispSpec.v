(** What a row of the terminal shows, and how the input line is laid out in rows. *)
From Verif Require Import Base DispModel.
Open Scope N_scope.

(** ** A row of the terminal: [Glyph t w] is a character in its first cell, [Rest] one of its further cells *)
Inductive cell := Blank | Glyph (t : text) (w : nat) | Rest.
Definition blanks (n : nat) : list cell := repeat Blank n.
Fixpoint owed (k : nat) (l : list cell) : bool := match k, l with O, _ => true | S k', Rest :: l' => owed k' l' | S _, _ => false end.
(** a character that lost a part of its cells is gone: its other cells are blank *)
Fixpoint mend (k : nat) (l : list cell) : list cell :=
  match l with
  | [] => []
  | c :: l' =>
      match k with
      | S k' => c :: mend k' l'
      | O => match c with
             | Glyph t w => if (1 <=? w)%nat && owed (w - 1) l' then c :: mend (w - 1) l' else Blank :: mend 0 l'
             | _ => Blank :: mend 0 l'
             end
      end
  end.
(** no character is cut at the end of these cells *)
Definition whole (p : list cell) : Prop := forall l, mend 0 (p ++ l) = p ++ mend 0 l.

Section Spec.
Variable gl : text -> list cluster.
Variable W : nat.

Definition cells_of (g : cluster) : list cell := if teqb (fst g) [(32, f_normal)] then blanks (wid g) else Glyph (fst g) (wid g) :: repeat Rest (wid g - 1).
(** the cells that a text fills *)
Definition cells (t : text) : list cell := flat_map cells_of (gl t).

(** the row and the column of the cursor *)
Definition over (c : nat) (l row : list cell) : list cell := match l with [] => row | _ => mend 0 (firstn c row ++ l ++ skipn (c + length l) row) end.
Definition term (a : op) (s : list cell * nat) : list cell * nat :=
  let '(row, c) := s in
  match a with
  | Move c' => (row, c')
  | Ins k => (mend 0 (firstn c row ++ firstn (W - c) (blanks k ++ skipn c row)), c)
  | Del k => (mend 0 (firstn c row ++ skipn (c + k) row ++ blanks (Nat.min k (W - c))), c)
  | Print t => (over c (cells t) row, (c + length (cells t))%nat)
  | Eol => (mend 0 (firstn c row ++ blanks (W - c)), c)
  end.
Definition on_terminal (l : list op) (row : list cell) : list cell := fst (fold_left (fun s a => term a s) l (row, 0%nat)).

(** a line that fits its row: the text, then the padding *)
Definition fits (l : line) : Prop := exists body, l_text l = body ++ spaces (l_trail l) /\ l_lastcol l = (l_x l + length (cells body))%nat /\ (l_lastcol l + l_trail l <= W)%nat.
(** the row after the prompt [p] shows the text and nothing else *)
Definition shown (p : list cell) (t : text) : list cell := p ++ cells t ++ blanks (W - length p - length (cells t)).
(** the row before the new line is drawn in column [dx] on, after the prompt [p]: it shows the old line, which may start further
    to the right; or the new prompt is longer and has been written over a part of it, and there is nothing right of where it
    ended; or nothing is known about it *)
Definition old_row (p : list cell) (o : option line) (dx : nat) (row : list cell) : Prop :=
  (length row = W /\ length p = dx) /\
  match o with
  | None => exists z, row = p ++ z
  | Some ol => (exists q, row = p ++ q ++ cells (l_text ol) ++ blanks (W - l_x ol - length (cells (l_text ol))) /\ l_x ol = (dx + length q)%nat)
            \/ ((l_x ol < dx)%nat /\ exists z, row = p ++ z /\ skipn (l_lastcol ol) row = blanks (W - l_lastcol ol))
  end.
(** no two blanks side by side, and none at the beginning *)
Fixpoint tidy_from (b : bool) (t : text) : Prop := match t with [] => True | c :: t' => (is_blank c = true -> b = false) /\ tidy_from (is_blank c) t' end.
Definition tidy (t : text) : Prop := tidy_from true t.
(** every character is of one colour *)
Definition one_face (t : text) : Prop := Forall (fun g : cluster => Forall (fun c => snd c = last_face (fst g)) (fst g)) (gl t).

(** ** Layout *)
(** what a character of the line looks like: a control character is ^X; a newline ends the row *)
Definition newline (nls : bool) (g : cluster) : bool := nls && match fst g with (c, _) :: _ => c =? 10 | [] => false end.
Definition looks (g : cluster) : text := match fst g with (c, f) :: _ => if (snd g <? 0)%Z then [(94, f); (unctrl c, f)] else fst g | [] => [] end.
(** the cells it takes *)
Definition takes (g : cluster) : nat := if (snd g <? 0)%Z then 2%nat else Z.to_nat (snd g).
(** the text on a row without the padding *)
Definition body (l : line) : text := firstn (length (l_text l) - l_trail l) (l_text l).
End Spec.
