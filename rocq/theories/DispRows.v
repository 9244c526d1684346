(** How the input line is to be laid out in rows: pieces that are not divided, each with the columns it takes. *)
From Verif Require Import Base DispModel DispSpec.
Open Scope nat_scope.

Definition piece := (text * nat)%type.
(** the pieces of a character; None is the end of a row: a control character is ^X, which may be divided *)
Definition pieces (nls : bool) (g : cluster) : list (option piece) :=
  if newline nls g then [None]
  else match fst g with
       | (c, f) :: _ => if (snd g <? 0)%Z then [Some ([(94%N, f)], 1); Some ([(unctrl c, f)], 1)] else [Some (fst g, Z.to_nat (snd g))]
       | [] => []
       end.
Definition span (ps : list piece) : nat := fold_right (fun p n => snd p + n) 0 ps.
Definition ptext (ps : list piece) : text := concat (map fst ps).
(** a row: what the code has for it, and the pieces that it shows *)
Definition rowp := (line * list piece)%type.
Definition flat1 (r : rowp) : list (option piece) := map Some (snd r) ++ (if l_newline (fst r) then [None] else []).
Definition flat (rs : list rowp) : list (option piece) := flat_map flat1 rs.

Section Rows.
Variable W : nat.
(** the row shows its pieces and then its padding, in the columns the code says, within the width *)
Definition laid (r : rowp) : Prop :=
  l_text (fst r) = ptext (snd r) ++ spaces (l_trail (fst r)) /\ l_lastcol (fst r) = l_x (fst r) + span (snd r) /\ l_lastcol (fst r) + l_trail (fst r) <= W.
(** the next row starts in the first column where the row before it ended in the buffer; the row ended with a newline, or it is full,
    padded only if the next piece does not fit *)
Definition follows (a b : rowp) : Prop :=
  l_x (fst b) = 0 /\ l_start (fst b) = l_end (fst a) + (if l_newline (fst a) then 1 else 0) /\
  (if l_newline (fst a) then l_trail (fst a) = 0
   else l_lastcol (fst a) + l_trail (fst a) = W /\ (l_trail (fst a) = 0 \/ exists p q, snd b = p :: q /\ l_trail (fst a) < snd p)).
Fixpoint linked (rs : list rowp) : Prop := match rs with a :: rs' => match rs' with b :: _ => follows a b | [] => True end /\ linked rs' | [] => True end.

Variable nls : bool.
(** the characters of the buffer *)
Variable gs : list cluster.
Definition all_pieces (l : list cluster) : list (option piece) := flat_map (pieces nls) l.
Definition bytes (l : list cluster) : nat := blen (concat (map fst l)).
(** position n of the buffer is where the pieces f end, or f ends within ^X *)
Definition start_ok (f : list (option piece)) (n : nat) : Prop :=
  exists pre post, gs = pre ++ post /\ n = bytes pre /\
    (f = all_pieces pre \/ exists g post' q q2, post = g :: post' /\ pieces nls g = [q; q2] /\ f = all_pieces pre ++ [q]).
Fixpoint starts_from (f : list (option piece)) (rs : list rowp) : Prop := match rs with [] => True | r :: rs' => start_ok f (l_start (fst r)) /\ starts_from (f ++ flat1 r) rs' end.

(** row v, column c of the rows is where the pieces f end and q begins *)
Definition at_piece (rs : list rowp) (v c : nat) (f : list (option piece)) (q : option piece) : Prop :=
  exists R1 l ps R2 p1 p2, rs = R1 ++ (l, ps) :: R2 /\ v = length R1 /\ ps = p1 ++ p2 /\ flat R1 ++ map Some p1 = f /\ c = l_x l + span p1 /\
    match q with Some z => exists p3, p2 = z :: p3 | None => p2 = [] /\ l_newline l = true end.
(** the cursor is before the character that byte position point is in; at the end of the buffer it is in the last row after all pieces *)
Definition cursor_at (rs : list rowp) (point v c : nat) : Prop :=
  (exists pre g post q, gs = pre ++ g :: post /\ bytes pre <= point < bytes pre + blen (fst g) /\ hd_error (pieces nls g) = Some q /\ at_piece rs v c (all_pieces pre) q)
  \/ (point = bytes gs /\ exists R1 l ps, rs = R1 ++ [(l, ps)] /\ v = length R1 /\ c = l_x l + span ps).

Record layout (col : nat) (rs : list rowp) : Prop := {
  lo_laid : Forall laid rs;
  lo_linked : linked rs;
  lo_first : match rs with r :: _ => l_x (fst r) = col | [] => False end;
  lo_all : flat rs = all_pieces gs;
  lo_start : starts_from [] rs;
  lo_last : exists R1 l ps, rs = R1 ++ [(l, ps)] /\ l_newline l = false /\ l_trail l = 0 /\ l_lastcol l < W /\ l_end l = bytes gs }.
End Rows.
