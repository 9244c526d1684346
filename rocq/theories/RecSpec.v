(** What is said about executions of the recognizer. *)
From Verif Require Import Base RecModel.
Open Scope N_scope.

Section Spec.
Variable world : Type.
Variable search : world -> str -> str -> str * N.
Notation st := (st world). Notation act := (act world). Notation run := (run world search).

(** the editor thread adds no work *)
Definition quiet (a : act) : bool := match a with Enqueue _ _ _ _ _ | Clear _ _ | Shutdown _ _ => false | _ => true end.
Definition is_worker (a : act) : bool := match a with Worker _ => true | _ => false end.
(** how many steps of the worker *)
Definition workers (t : list act) : nat := length (filter is_worker t).
Definition reachable (s : st) : Prop := exists w t, run (init _ w) t = Some s.
(** in the execution [t] from [s0], word [w] was enqueued as [k] for the directory [c] *)
Definition asked (t : list act) (k w c : str) : Prop := exists t1 x t2, t = t1 ++ Enqueue _ k w c x :: t2.
(** in the execution [t] from [s0], some word was enqueued as [k], and at a later moment searching it gives [f] and [r] *)
Definition answered (s0 : st) (t : list act) (k f : str) (r : N) : Prop :=
  exists t1 w c x t2 t3 sm, t = t1 ++ Enqueue _ k w c x :: t2 ++ t3 /\ run s0 (t1 ++ Enqueue _ k w c x :: t2) = Some sm /\ search (now _ sm) w c = (f, r).
(** at some moment of the execution, searching [w] gives [f] and [r] *)
Definition later (s1 : st) (t : list act) (w c f : str) (r : N) : Prop := exists t1 t2 sm, t = t1 ++ t2 /\ run s1 t1 = Some sm /\ search (now _ sm) w c = (f, r).
End Spec.
