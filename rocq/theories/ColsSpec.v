(** What a layout of matches in columns is expected to do. *)
From Verif Require Import Base ColsModel.

(** Where display_matches.cpp (895-929) shows the matches: so many rows; the number of the match in a row and column. *)
Definition rows (count n : nat) : nat := (count + (n - 1)) / n.
Definition cell (vertical : bool) (count n r c : nat) : nat := if vertical then r + c * rows count n else r * n + c.
Definition in_column (i : input) (n c : nat) (l : nat) : bool :=
  existsb (fun r => cell (i_vertical i) (count i) n r c =? l) (seq 0 (rows (count i) n)).
Definition members (i : input) (n c : nat) : list item :=
  map snd (filter (fun p => in_column i n c (fst p)) (combine (seq 0 (count i)) (i_items i))).

Local Open Scope N_scope.
Definition longest (f : item -> N) (xs : list item) : N := fold_right N.max 0 (map f xs).
Definition nsum (l : list N) : N := fold_right N.add 0 l.
(** The cells of a description with its padding (and parentheses). *)
Definition described (i : input) (pad : N) (x : item) : N :=
  if i_descs i then if N.eqb (snd x) 0 then 0 else N.min 1024 (snd x) + pad else 0.
Definition own_pad (i : input) : N := 4. (* 4 blanks, or 2 blanks and the parentheses *)
(** The cells a column needs: descriptions are aligned in a second column, or at the right of each match. *)
Definition need (i : input) (n c : nat) : N :=
  let xs := members i n c in
  if no_right_justify i then N.max 1 (longest fst xs) + longest (described i (own_pad i)) xs
  else N.max 1 (longest (fun x => fst x + described i (own_pad i) x) xs).
(** The cells a layout with [n] columns needs. *)
Definition total (i : input) (n : nat) : N := nsum (map (need i n) (seq 0 n)) + N.of_nat (n - 1) * col_padding i.

(** Widths are far from 16 bits. *)
Definition small (i : input) : Prop := i_screen i < 60000 /\ Forall (fun x => fst x + i_screen i < 60000) (i_items i).
(** As many columns as fit are asked for. *)
Definition best_fit (i : input) : Prop := i_one_column i = false /\ (i_max_matches i = 0 \/ Z.of_nat (count i) <= i_max_matches i)%Z.
