(** Specification of reaping: subsequences of entry texts, removals that point at lines. *)
From Verif Require Import Base HistSpec HistDbSpec.

Inductive subseq {A} : list A -> list A -> Prop :=
| sub_nil l : subseq [] l
| sub_keep x a b : subseq a b -> subseq (x :: a) (x :: b)
| sub_skip x a b : subseq a b -> subseq a (x :: b).

(** Every offset a current removals file names is the start of a line of the master file, and marking that line
    does not turn it into a time stamp line. *)
Definition removals_at_lines (m : bytes) (r : option bytes) : Prop :=
  forall o, spec_removed m r o = true ->
    exists t, In (o, t) (lines_of m) /\ (bar_line t = true \/ time_line (BAR :: tl t) = false).

(** The master entries a session has not removed. *)
Definition not_removed (m : bytes) (r : option bytes) : list ventry :=
  filter (fun e => negb (spec_removed m r (v_off e))) (visible none_removed m).
