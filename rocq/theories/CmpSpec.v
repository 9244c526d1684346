(** What comparing two texts means (independent of CmpModel, except for the accent table). *)
From Verif Require Import Base CmpModel.

(** Looking up a character in the accent table. *)
Fixpoint assoc (l : list (N * N)) (c : N) : N :=
  match l with [] => c | (a, n) :: l' => if N.eqb a c then n else assoc l' c end.

Section Spec.
Variable lower : N -> N.

(** The representative of a character: exact mode distinguishes all characters, caseless mode (1) those with
    different lower case, relaxed mode (2) also identifies - and _; unless slashes are exact, \ is /; with fuzzy
    accents letters are represented by the letter without accent. *)
Definition key (mode : nat) (fuzzy exact_slash : bool) (c : N) : N :=
  let c1 := match mode with O => c | _ => if (c <? 65536)%N then lower c else c end in
  let c2 := match mode with O | 1 => c1 | _ => if N.eqb c1 45 then 95%N else c1 end in
  let c3 := if exact_slash then c2 else if N.eqb c2 92 then 47%N else c2 in
  if fuzzy then assoc accents c3 else c3.

Definition sep (c : N) : Prop := c = 47%N \/ c = 92%N.

(** A text as a sequence of elements: single characters, where a path separator takes the separators following it
    with it.  Each element is given by its representative and its characters. *)
Inductive elements (k : N -> N) : list N -> list (N * list N) -> Prop :=
| E_nil : elements k [] []
| E_char c r es : k c <> 47%N -> elements k r es -> elements k (c :: r) ((k c, [c]) :: es)
| E_sep c s r es : k c = 47%N -> Forall sep s -> match r with x :: _ => ~ sep x | [] => True end ->
    elements k r es -> elements k (c :: s ++ r) ((47%N, c :: s) :: es).
End Spec.

(** The number of leading positions on which two sequences agree. *)
Fixpoint agree (a b : list N) : nat :=
  match a, b with
  | x :: a', y :: b' => if N.eqb x y then S (agree a' b') else 0
  | _, _ => 0
  end.
