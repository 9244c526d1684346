(** Lines of display characters. *)
From Verif Require Import Base WcModel.
Open Scope N_scope.

Definition is_space (g : glyph) : bool := match fst (fst g) with [32] => true | _ => false end.
Definition gwidth (l : list glyph) : Z := fold_right Z.add 0%Z (map onectrl l).
(** the characters before the first space *)
Fixpoint word (l : list glyph) : list glyph := match l with [] => [] | g :: r => if is_space g then [] else g :: word r end.
Definition solid (l : list glyph) : Prop := Forall (fun g => is_space g = false) l.
Definition blank (l : list glyph) : Prop := Forall (fun g => is_space g = true) l.

(** not empty, and begins and ends with something that is no space *)
Definition edges (l : list glyph) : Prop := match l, rev l with a :: _, b :: _ => is_space a = false /\ is_space b = false | _, _ => False end.

(** [wrapped w l ls]: the characters [l] in lines [ls] of at most [w] cells.  Between lines only spaces are left out; a
    line break goes where the next word would not fit, and within a word only when the word alone does not fit. *)
Inductive wrapped (w : Z) : list glyph -> list (list glyph) -> Prop :=
| wr_nil : wrapped w [] []
| wr_line line gap rest ls :
    edges line ->
    (gwidth line <= w)%Z ->
    blank gap ->
    (rest <> [] -> w < gwidth (line ++ gap ++ word rest))%Z ->
    (rest <> [] -> gap = [] -> solid line) ->
    (match rest with [] => True | g :: _ => is_space g = false end) ->
    wrapped w rest ls ->
    wrapped w (line ++ gap ++ rest) (line :: ls).
