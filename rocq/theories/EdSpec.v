(** What pasting and editing with a selection are to mean. *)
From Verif Require Import Base QueueModel EdModel.
Open Scope N_scope.

Definition newline (c : N) : Prop := c = 10 \/ c = 13.
Definition no_newline (t : list N) : Prop := Forall (fun c => ~ newline c) t.
(** text as pieces without newlines and runs of newlines between them *)
Inductive runs : list N -> list (list N) -> Prop :=
| runs_one p : no_newline p -> runs p [p]
| runs_cons p n t ps : no_newline p -> n <> [] -> Forall newline n -> match t with c :: _ => ~ newline c | [] => True end -> runs t ps -> runs (p ++ n ++ t) (p :: ps).
Fixpoint join (sep : list N) (ps : list (list N)) : list N := match ps with [] => [] | [p] => p | p :: ps' => p ++ sep ++ join sep ps' end.
(** text as lines *)
Inductive lines : list N -> list (list N) -> Prop :=
| lines_one p : Forall (fun c => c <> 10) p -> lines p [p]
| lines_cons p t ls : Forall (fun c => c <> 10) p -> lines t ls -> lines (p ++ 10 :: t) (p :: ls).
Definition without_cr (t : list N) : list N := filter (fun c => negb (c =? 13)) t.
(** the lines after the first as they are to be queued: the last one is not ended, and is not there if it is empty *)
Definition queued (rest : list (list N)) : list (list N) := map (fun p => p ++ [10]) (removelast rest) ++ match last rest [] with [] => [] | p => [p] end.
(** what the queue gives until it is empty: lines, and whether they are left to be edited *)
Inductive drained (resolve : list N -> list N) : list qline -> list (list N * bool) -> Prop :=
| drained_nil : drained resolve [] []
| drained_cons q t f q' l : dequeue_line resolve q = Some (t, f, q') -> drained resolve q' l -> drained resolve q ((t, f_edit f) :: l).

(** the last line queued is ended *)
Definition ended (q : list qline) : Prop := q = [] \/ exists q0 x t, q = q0 ++ [x] /\ q_line x = t ++ [10].

(** [s] is selected between [a] and [c], in one or the other direction *)
Definition selected (b : line) (a s c : list N) : Prop :=
  l_text b = a ++ s ++ c /\ ((l_anchor b = Some (length a) /\ l_point b = length (a ++ s)) \/ (l_anchor b = Some (length (a ++ s)) /\ l_point b = length a)).
(** the line is [a] and [c] with the cursor between them and nothing selected *)
Definition between (b : line) (a c : list N) : Prop := l_text b = a ++ c /\ l_point b = length a /\ l_anchor b = None.
(** the cursor and the other end of the selection are places in the line *)
Definition in_line (b : line) : Prop := (l_point b <= length (l_text b))%nat /\ match l_anchor b with Some a => (a <= length (l_text b))%nat | None => True end.
(** / and \ *)
Definition slash (c : N) : Prop := c = 47 \/ c = 92.
(** [w'] is [w] with other slashes *)
Definition same_but_slashes (w w' : list N) : Prop := Forall2 (fun x y => x = y \/ (slash x /\ slash y)) w w'.
