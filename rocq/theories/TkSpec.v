From Verif Require Import Base TkModel.

(** states that some interleaving of the threads, the main thread and requests leads to *)
Definition reachable (s : state) : Prop := exists ls, run ls initial = Some s.
(** [e] happens at most once in a history *)
Definition at_most_once (e : event) (h : list event) : Prop := forall l1 l2 l3, h <> l1 ++ e :: l2 ++ e :: l3.
(** [a] never happens when [b] already has, in a history whose newest event is first *)
Definition never_after (a b : event) (h : list event) : Prop := forall l1 l2, h = l1 ++ a :: l2 -> ~ In b l2.
(** the thread of a task did everything it has to do *)
Definition finished (t : task) : Prop := t_pc t = WEnd.
(** nothing goes on: the main thread waits for an event, and there is none *)
Definition quiet (s : state) : Prop := s_main s = MReady /\ s_event s = false.
Definition is_add (l : label) : bool := match l with LAdd _ _ _ => true | _ => false end.
