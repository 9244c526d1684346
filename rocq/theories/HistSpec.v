(** Specification of history files, independent of the iterator in HistFileModel.v: the whole file is
    split at NUL, CR and LF in one pass. *)
From Verif Require Import Base.

Definition brk (c : byte) : bool := Ascii.eqb c NUL || Ascii.eqb c LF || Ascii.eqb c CR.
Definition no_brk (t : bytes) : bool := forallb (fun c => negb (brk c)) t.

(** A file is terminated when it is empty or its last byte is a line break. *)
Definition terminated (f : bytes) : Prop := f = [] \/ exists g b, f = g ++ [b] /\ brk b = true.

(** Positions and texts of the maximal break-free pieces that are followed by a break. *)
Fixpoint raw_lines (o : nat) (cur : bytes) (f : bytes) : list (nat * bytes) :=
  match f with
  | [] => []
  | c :: f' =>
      if brk c then
        match cur with
        | [] => raw_lines (S o) [] f'
        | _ => (o - length cur, cur) :: raw_lines (S o) [] f'
        end
      else raw_lines (S o) (cur ++ [c]) f'
  end.

Definition lines_of (f : bytes) : list (nat * bytes) := raw_lines 0 [] f.

Definition TIME : bytes := BAR :: TAB :: lit "time=".
Definition CTAG : bytes := lit "|CTAG_".

Definition bar_line (t : bytes) : bool := match t with c :: _ => Ascii.eqb c BAR | [] => false end.
Definition time_line (t : bytes) : bool := prefixb TIME t.

(** What the user sees: position, text, and the time stamp line in force. *)
Record ventry := mkV { v_off : nat; v_text : bytes; v_ts : option (nat * bytes) }.

(** Visible entries: a '|' line is not shown; a time line sets the time stamp for what follows; other
    '|' lines cancel it; a removed line is skipped (without cancelling the time stamp). *)
Fixpoint visible_from (removed : nat -> bool) (ts : option (nat * bytes)) (ls : list (nat * bytes))
  : list ventry :=
  match ls with
  | [] => []
  | (o, t) :: ls' =>
      if time_line t then visible_from removed (Some (o, skipn 7 t)) ls'
      else if bar_line t then visible_from removed None ls'
      else if removed o then visible_from removed ts ls'
      else mkV o t ts :: visible_from removed None ls'
  end.

Definition visible (removed : nat -> bool) (f : bytes) : list ventry :=
  visible_from removed None (lines_of f).

(** Number of deleted lines: '|' lines other than time lines, and removed lines. *)
Definition is_deleted (removed : nat -> bool) (l : nat * bytes) : bool :=
  negb (time_line (snd l)) && (bar_line (snd l) || removed (fst l)).

Definition deleted_lines (removed : nat -> bool) (ls : list (nat * bytes)) : nat :=
  length (filter (is_deleted removed) ls).

(** ... not counting a tag at the start of the file. *)
Definition deleted_count (removed : nat -> bool) (f : bytes) : nat :=
  match lines_of f with
  | (o, t) :: ls => if prefixb CTAG t then deleted_lines removed ls
                    else deleted_lines removed ((o, t) :: ls)
  | [] => 0
  end.

Definition lines_fit (cap : nat) (ls : list (nat * bytes)) : Prop :=
  Forall (fun l => length (snd l) < cap) ls.

Definition none_removed : nat -> bool := fun _ => false.
