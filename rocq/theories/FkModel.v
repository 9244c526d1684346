(** The keys F1 to F4 of the Windows console as commands (clink/lib/src/rl/rl_commands.cpp 1734-2150). A text is a list of
    characters, each the bytes of a character with the characters of width zero after it, so that _rl_find_next_mbchar with
    MB_FIND_NONZERO goes from one to the next; positions in the code are in bytes. Suggestions are off (1952). *)
From Verif Require Import Base.
Open Scope N_scope.

Definition char := list N.
Definition bytes (t : list char) : nat := length (concat t).
(** the line: the characters before the cursor and after it; whether text is selected (cua_get_anchor) *)
Record line := mkL { before : list char; after : list char; selecting : bool }.
(** adjust_point_point, 1785-1827, from 0: how many characters of [t] are passed; [tmp] is the byte position *)
Fixpoint walk (target tmp : nat) (t : list char) : nat :=
  match t with
  | [] => O
  | c :: t' => if (tmp <? target)%nat then S (walk target (tmp + length c) t') else O
  end.
Definition adjust_point_point (target : nat) (t : list char) : nat := walk (Nat.min target (bytes t)) 0 t.
(** adjust_point_delta, 1735-1782, from the beginning of [t]: how many characters are passed; 1751: at most as many as there
    are bytes *)
Definition adjust_point_delta (delta : nat) (t : list char) : nat := Nat.min (Nat.min delta (bytes t)) (length t).
Fixpoint is_prefix (a b : list N) : bool := match a, b with [], _ => true | x :: a', y :: b' => (x =? y) && is_prefix a' b' | _, _ => false end.
(** adjust_point_keyseq, 1830-1873 *)
Fixpoint find_key (key : list N) (t : list char) : nat :=
  match t with
  | [] => O
  | c :: t' => if is_prefix key (concat t) then O else S (find_key key t')
  end.
(** win_f1, 1946-1998; rl_forward_char goes to the next character *)
Definition forward (n : nat) (l : line) : line := mkL (before l ++ firstn n (after l)) (skipn n (after l)) (selecting l).
Definition win_f1 (prev : option (list char)) (count : nat) (l : line) : line :=
  let count := if (count =? 0)%nat then 1%nat else count in
  let left := (count - length (after l))%nat in
  let l' := forward count l in
  if (left =? 0)%nat then l'
  else if selecting l then l'
  else match prev with
  | None => l'
  | Some p =>
      let old := adjust_point_point (bytes (before l')) p in
      let rest := skipn old p in
      match rest with
      | [] => l'
      | _ => let n := adjust_point_delta left rest in if (n =? 0)%nat then l' else mkL (before l' ++ firstn n rest) (after l') (selecting l')
      end
  end.
(** win_f3, 2078-2081, with the count as a parameter *)
Definition win_f3 (many : nat) (prev : option (list char)) (l : line) : line := win_f1 prev many l.
(** finish_win_f2, 2001-2044 *)
Definition win_f2 (prev : option (list char)) (key : list N) (l : line) : line :=
  match prev, key with
  | None, _ => l
  | _, [] => l
  | Some p, _ =>
      let old := adjust_point_point (bytes (before l)) p in
      let rest := skipn old p in
      match rest with
      | [] => l
      | _ => let n := find_key key rest in if (n =? 0)%nat then l else mkL (before l ++ firstn n rest) (skipn (adjust_point_delta n (after l)) (after l)) (selecting l)
      end
  end.
(** finish_win_f4, 2084-2103 *)
Definition win_f4 (key : list N) (l : line) : line :=
  match key with [] => l | _ => mkL (before l) (skipn (find_key key (after l)) (after l)) (selecting l) end.
