(** What a pattern with ? and * means (independent of the matching algorithm; which characters are the same is
    CmpSpec.key). *)
From Verif Require Import Base CmpModel CmpSpec WildModel.

Definition wild (c : N) : Prop := c = QM \/ c = STAR.
Definition not_sep (l : list N) : Prop := Forall (fun c => ~ sep c) l.
Definition starts (P : N -> Prop) (l : list N) : Prop := match l with c :: _ => P c | [] => False end.

(** [l] is what follows the last separator of [l0]. *)
Definition final (l0 l : list N) : Prop :=
  not_sep l /\ (l0 = l \/ exists pre c, l0 = pre ++ c :: l /\ sep c).

Section Spec.
Variable same : N -> N -> Prop.
Variables p0 f0 : list N.        (* the whole pattern, the whole name *)
Variable dots : bool.
Variable me : everything.

(** [matches p f]: the name [f] is an instance of the pattern [p].
    - a separator (with those following it) stands for one or more separators;
    - ? stands for one character other than a separator, or for nothing at the end of the name;
    - * (with all ? and * following it) stands for any string without separators (with any string, if stars match
      everything); a separator directly after it stands for exactly one separator; at the end of the pattern it
      stands for anything unless stars never match separators;
    - if requested, a final component with wildcards also matches a name with additional leading dots. *)
Inductive matches : list N -> list N -> Prop :=
| W_end : matches [] []
| W_char c d p f : ~ wild c -> ~ sep c -> same c d -> matches p f -> matches (c :: p) (d :: f)
| W_sep c d s t p f : sep c -> sep d -> Forall sep s -> Forall sep t -> ~ starts sep p -> ~ starts sep f ->
    matches p f -> matches (c :: s ++ p) (d :: t ++ f)
| W_any d p f : ~ sep d -> matches p f -> matches (QM :: p) (d :: f)
| W_missing p : matches p [] -> matches (QM :: p) []
| W_star_end w s : Forall wild w -> (me = EvNo -> not_sep s) -> matches (STAR :: w) s
| W_star w c d s p f : Forall wild w -> ~ wild c -> same c d -> (me <> EvYes -> not_sep s) ->
    matches p f -> matches (STAR :: w ++ c :: p) (s ++ d :: f)
| W_dots ds c p f : dots = true -> final p0 (c :: p) -> final f0 (ds ++ f) -> Exists wild (c :: p) ->
    ~ wild c -> c <> DOT -> ds <> [] -> Forall (fun x => x = DOT) ds -> ~ starts (fun x => x = DOT) f ->
    matches (c :: p) f -> matches (c :: p) (ds ++ f).
End Spec.

(** The textbook meaning: ? is one character, * is any string. *)
Inductive glob (same : N -> N -> Prop) : list N -> list N -> Prop :=
| G_end : glob same [] []
| G_char c d p f : ~ wild c -> same c d -> glob same p f -> glob same (c :: p) (d :: f)
| G_any d p f : glob same p f -> glob same (QM :: p) (d :: f)
| G_star s p f : glob same p f -> glob same (STAR :: p) (s ++ f).

Definition stars (p : list N) : nat := count_occ N.eq_dec p STAR.
