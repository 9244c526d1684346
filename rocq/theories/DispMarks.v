(** display_lines::apply_scroll_markers (clink/lib/src/display_readline.cpp, 892-980): the markers on the first and the last row
    shown when there are rows above and below.  [c_horz_scroll_indicator_chars] is 1. *)
From Verif Require Import Base DispModel.
Open Scope nat_scope.

Section Marks.
Variable gl : text -> list cluster.
Variable W : nat.
(** clink_wcswidth of one code point *)
Variable cw : N -> nat.
Definition with_text (t : text) (lastcol trail : nat) (toeol : bool) (l : line) : line := mkL t (l_start l) (l_end l) (l_x l) lastcol (l_lead l) trail (l_newline l) toeol.
(** 900-945; every character has a width *)
Definition top_mark (l : line) : line :=
  match gl (l_text l) with
  | [] => add [(60%N, f_scroll)] l
  | g :: r => with_text ((60%N, f_scroll) :: concat (map fst r) ++ spaces (wid g - 1)) (l_lastcol l) (l_trail l + (wid g - 1)) (l_toeol l) l
  end.
(** 957-962: code points are removed at the end; the text is reversed *)
Fixpoint drop_end (x lastcol : nat) (rt : text) : text * nat :=
  match rt with
  | c :: rt' => if W <=? x + lastcol + 1 then drop_end x (lastcol - cw (fst c)) rt' else (rt, lastcol)
  | [] => (rt, lastcol)
  end.
(** 947-979 *)
Definition bottom_mark (l : line) : line :=
  if 2 <? l_lastcol l - l_x l then
    let '(rt, lastcol) := drop_end (l_x l) (l_lastcol l) (rev (firstn (length (l_text l) - l_trail l) (l_text l))) in
    let n := W - 2 - (l_x l + lastcol) in
    with_text (rev rt ++ spaces n ++ [(62%N, f_scroll)]) (lastcol + n + 1) (l_trail l) false l
  else l.
(** 892-981; [botlin]: m_prompt_botlin *)
Definition scroll_marks (botlin top bottom : nat) (lines : list line) : list line :=
  let lines := if botlin <? top then match nth_error lines top with Some l => firstn top lines ++ top_mark l :: skipn (S top) lines | None => lines end else lines in
  if bottom + 1 <? length lines then match nth_error lines bottom with Some l => firstn bottom lines ++ bottom_mark l :: skipn (S bottom) lines | None => lines end else lines.
End Marks.
