(** clink/terminal/src/ecma48_wrapper.cpp: wrapping text into lines.

    Pointers are offsets in the text after its leading spaces; the text ends before the NUL. *)
From Verif Require Import Base UtfModel UtfSpec UtfProofs EscModel WidthModel WcModel EllModel.
Open Scope N_scope.

Section Wrap.
(** g_color_emoji and wcwidth *)
Variable ce : bool.
Variable wcw : N -> Z.
Notation wnext := (wnext ce wcw is_variant_selector is_possible_unqualified_half_width is_emoji).

(** s, end_fits, end_word, next_word, cells, m_lines (pointer and length) *)
Record wrs := mkWr { r_s : nat; r_fits : nat; r_word : nat; r_next : nat; r_cells : Z; r_lines : list (nat * Z) }.
(** while ( *s == ' ') s++; *)
Fixpoint spaces (t : list N) : nat := match t with 32 :: t => S (spaces t) | _ => O end.
Definition push (r : wrs) : list (nat * Z) := r_lines r ++ [(r_s r, (Z.of_nat (r_fits r) - Z.of_nat (r_s r))%Z)].
(** 34-73: the characters of a code whose text ends at offset [fin] of [t]; [None]: out of fuel *)
Fixpoint inner (t : list N) (wrap : Z) (fin : nat) (fuel : nat) (w : wst) (r : wrs) : option wrs :=
  match fuel with
  | O => None
  | S fuel =>
    match wnext w with
    | None => None
    | Some (c, w) =>
      let p := (fin - length (w_end w))%nat in
      let r := if (c =? 0) || (c =? 32) then mkWr (r_s r) (r_word r) (r_word r) p (r_cells r) (r_lines r) else r in
      if c =? 0 then Some r
      else
        let x := onectrl (wglyph w) in
        if negb (wrap =? 0)%Z && (wrap <? r_cells r + x)%Z then
          let r := if (r_fits r <=? r_s r)%nat then mkWr (r_s r) (r_word r) (r_word r) (r_word r) (r_cells r) (r_lines r) else r in
          let s := (r_next r + spaces (skipn (r_next r) t))%nat in
          inner t wrap fin fuel (wreset (sub t s (fin - s))) (mkWr s s s (r_next r) 0 (push r))
        else inner t wrap fin fuel w (mkWr (r_s r) (r_fits r) (if c =? 32 then r_word r else p) (r_next r) (r_cells r + x)%Z (r_lines r))
    end
  end.
(** 26-78 *)
Fixpoint outer (t : list N) (wrap : Z) (fuel : nat) (l : list (bool * list N * nat * nat)) (r : wrs) : option wrs :=
  match l with
  | [] => Some r
  | (true, x, from, _) :: l =>
    match inner t wrap (from + length x) fuel (wreset x) r with None => None | Some r => outer t wrap fuel l r end
  | (false, x, _, _) :: l => outer t wrap fuel l (mkWr (r_s r) (r_fits r + length x) (r_word r) (r_next r) (r_cells r) (r_lines r))
  end.
(** m_lines[i]: str_iter(s, length), where a negative length means up to the NUL *)
Definition line_text (t : list N) (l : nat * Z) : list N := if (snd l <? 0)%Z then skipn (fst l) t else sub t (fst l) (Z.to_nat (snd l)).
(** 9-85; the lines that next() returns, each without the newline *)
Definition wrapper (fuel : nat) (text : list N) (wrap : Z) : option (list (list N)) :=
  let t := skipn (spaces text) text in
  match scan_all t with
  | None => None
  | Some l =>
    match outer t wrap fuel l (mkWr 0 0 0 0 0 []) with
    | None => None
    | Some r =>
      let lines := if (r_s r <? r_fits r)%nat then push r else r_lines r in
      Some (map (line_text t) (match lines with [] => [(O, 0%Z)] | _ => lines end))
    end
  end.
End Wrap.
