(** Properties C95, C96, C97: asynchronous tasks. *)
From Verif Require Import Base TkModel TkSpec TkProofs TkMore.

(** C95: whatever the interleaving, the callback of a task is called at most once, after its work is complete, and never when
    its Lua reference has been released; the reference is released at most once. *)
Theorem callback_used_properly s i : reachable s ->
  at_most_once (Ran i) (s_log s) /\ at_most_once (Freed i) (s_log s) /\ never_after (Ran i) (Freed i) (s_log s) /\ (In (Ran i) (s_log s) -> t_complete (s_task s i) = true).
Proof.
  intros R. apply reachable_inv in R. destruct (Nat.ltb_spec i (s_n s)) as [L|L].
  - destruct (inv_task s R i L) as (A & B & C & D & F & G & H & J & K).
    split; [now apply once_cnt|]. split. { apply once_cnt. destruct (t_had (s_task s i)); cbn in C; lia. } split; [exact H|]. intros Q. now apply G.
  - destruct (inv_out s R i L) as (A & B & C & D). split; [apply once_cnt; lia|]. split; [apply once_cnt; lia|].
    split. { intros l1 l2 E. exfalso. assert (X : In (Ran i) (s_log s)) by (rewrite E; apply in_or_app; right; now left). rewrite cnt_in in X. lia. }
    intros Q. rewrite cnt_in in Q. lia.
Qed.
Print Assumptions callback_used_properly.
(** C95: a task whose thread has finished does not stay unnoticed in the map: when the main thread waits with no event
    pending, no finished task is left. *)
Theorem finished_task_noticed s i : reachable s -> quiet s -> In i (s_map s) -> ~ finished (s_task s i).
Proof.
  intros R [Q1 Q2] M P. apply reachable_inv in R. destruct (wake_same s R i M P) as [A|[A B]]; [rewrite Q2 in A; discriminate|]. rewrite Q1 in A. discriminate.
Qed.
Print Assumptions finished_task_noticed.
(** C95: and when all threads are finished, nothing is left over: no task, no reference to release, and every callback given
    to a task was released, unless a shutdown dropped it. *)
Theorem quiet_is_clean s : reachable s -> quiet s -> (forall i, (i < s_n s)%nat -> finished (s_task s i)) ->
  s_map s = [] /\ s_unref s = [] /\ (forall i, (i < s_n s)%nat -> t_had (s_task s i) = true -> In (Freed i) (s_log s) \/ In i (s_dropped s)).
Proof.
  intros R Q P. pose proof (reachable_inv s R) as HI.
  assert (M : s_map s = []). { destruct (s_map s) as [|i l] eqn:E; [reflexivity|]. exfalso. assert (X : In i (s_map s)) by (rewrite E; now left). apply (finished_task_noticed s i R Q X). apply P. pose proof (inv_lt s HI) as L. rewrite Forall_forall in L. now apply L. }
  destruct Q as [Q1 Q2].
  assert (U : s_unref s = []). { destruct (s_unref s) as [|i l] eqn:E; [reflexivity|]. exfalso. assert (X : s_unref s <> []) by (rewrite E; discriminate). destruct (inv_unref s HI X) as [A|[A|A]]; [rewrite Q2 in A; discriminate| |]; rewrite Q1 in A; discriminate. }
  split; [exact M|]. split; [exact U|]. intros i L T. destruct (inv_task s HI i L) as (A & B & C & D & _). rewrite U, T in C. cbn in C.
  destruct (t_ref (s_task s i)); [rewrite M in D; destruct (D eq_refl)|]. cbn in C.
  destruct (in_dec event_eq (Freed i) (s_log s)) as [X|X]; [now left|right]. rewrite cnt_in in X. apply (count_occ_In Nat.eq_dec). unfold cntn in C. lia.
Qed.
Print Assumptions quiet_is_clean.
(** C95: at the end of a line only the tasks that are to run until they are complete stay. *)
Theorem end_of_line_cancels s b s' : reachable s -> s_main s = MVisit (KEnd b) [] -> step LMain s = Some s' -> forall i, In i (s_map s') -> t_ruc (s_task s' i) = true.
Proof.
  intros [ls R] E H i M. assert (X : EInv s) by (apply (einv_run ls initial); [exact Logic.I|exact R]). unfold EInv in X. rewrite E in X.
  cbn [step] in H. unfold main in H. rewrite E in H. injection H as <-. cbn in *. destruct (t_ruc (s_task s i)) eqn:T; [reflexivity|]. destruct (X i M T).
Qed.
Print Assumptions end_of_line_cancels.
(** C95: the callback of a task that is not in the map any more is never called. *)
Theorem no_late_callback s ls s' i : reachable s -> (i < s_n s)%nat -> ~ In i (s_map s) -> ~ In (Ran i) (s_log s) -> run ls s = Some s' -> ~ In (Ran i) (s_log s').
Proof. intros R L M N H. apply reachable_inv in R. now apply (gone_run ls s). Qed.
Print Assumptions no_late_callback.
(** C95: there is at most one task for a key. *)
Theorem one_task_per_key s i j : reachable s -> In i (s_map s) -> In j (s_map s) -> t_key (s_task s i) = t_key (s_task s j) -> i = j.
Proof.
  intros R. apply reachable_inv in R. pose proof (inv_keys s R) as K. clear R. induction (s_map s) as [|x l IH]; cbn in *; [intros []|]. inversion K; subst.
  intros [A|A] [B|B] E; subst; auto; exfalso; apply H1; apply in_map_iff; [exists j|exists i]; auto.
Qed.
Print Assumptions one_task_per_key.

(** C96, refuted: the callback of a task is to be called when the task completes later.  Its own thread takes that back, by
    detach, before it signals that it is complete: the callback can only be called in between. *)
Theorem callback_window s l s' i : reachable s -> step l s = Some s' -> In (Ran i) (s_log s') -> ~ In (Ran i) (s_log s) -> t_pc (s_task s i) = WCancel.
Proof.
  intros R H A B. apply reachable_inv in R. destruct (ran_step _ _ _ _ R H A B) as (_ & (t & M) & T & _). destruct (inv_todo s R) as [_ X]. rewrite M in X. pose proof (X i (or_introl eq_refl)) as Y.
  pose proof (inv_lt s R) as L. rewrite Forall_forall in L. destruct (inv_task s R i (L _ Y)) as (C & D & _). specialize (D T). pose proof (main_complete_same s R) as K. rewrite M in K. cbn in K. rewrite K in C.
  destruct (t_pc (s_task s i)); try discriminate; reflexivity.
Qed.
Print Assumptions callback_window.
(** C96, refuted: so with one task, its callback is never called, in no interleaving. *)
Theorem lone_callback_never_called ls s : run ls initial = Some s -> (List.length (filter is_add ls) <= 1)%nat -> forall i, ~ In (Ran i) (s_log s).
Proof. intros H L. assert (X : AInv s) by (apply (ainv_run ls initial); [exact initial_inv|exact initial_ainv|cbn; lia|exact H]). apply X. Qed.
Print Assumptions lone_callback_never_called.
(** a path is asked for, the answer comes later, the main thread is woken and runs on_idle *)
Definition lone_run : list label := [LAdd 7 true false; LMain] ++ repeat (LWorker 0) 8 ++ [LWake] ++ repeat LMain 6.
Theorem callback_called_refuted : exists s, run lone_run initial = Some s /\ quiet s /\ finished (s_task s 0%nat) /\ t_had (s_task s 0%nat) = true /\ t_canceled (s_task s 0%nat) = false /\ ~ In (Ran 0) (s_log s) /\ In (Freed 0) (s_log s).
Proof. eexists. split; [vm_compute; reflexivity|]. split; [split; reflexivity|]. split; [reflexivity|]. split; [reflexivity|]. split; [reflexivity|]. cbn. split; [intros [E|[]]; discriminate|now left]. Qed.
Print Assumptions callback_called_refuted.
(** the only way: another task wakes the main thread in the window *)
Definition window_run : list label := [LAdd 7 true false; LMain; LAdd 8 true false; LMain] ++ repeat (LWorker 1) 8 ++ repeat (LWorker 0) 2 ++ [LWake] ++ repeat LMain 13.
Example window_example : match run window_run initial with Some s => s_log s = [Freed 0; Freed 1; Ran 0] /\ s_map s = [] | None => False end.
Proof. vm_compute. split; reflexivity. Qed.
(** and the line ends while a task runs: it is cancelled and its reference released *)
Definition end_run : list label := [LAdd 7 true false; LMain; LWorker 0; LEndLine] ++ repeat LMain 7 ++ repeat (LWorker 0) 5 ++ [LWake; LMain].
Example end_example : match run end_run initial with Some s => s_log s = [Freed 0] /\ s_map s = [] /\ quiet s /\ finished (s_task s 0%nat) /\ t_canceled (s_task s 0%nat) = true /\ s_crash s = false | None => False end.
Proof. vm_compute. repeat (split; [reflexivity|]). split; [split; reflexivity|]. repeat (split; [reflexivity|]). reflexivity. Qed.

(** C97, refuted: a thread is detached once, through its object.  The thread itself and the main thread may both find it
    joinable at the end of a line: the second one detaches a thread that is detached already. *)
Definition race_run : list label := [LAdd 7 true false; LMain] ++ repeat (LWorker 0) 4 ++ [LEndLine] ++ repeat LMain 3 ++ [LWorker 0; LMain].
Theorem thread_detached_once_refuted : exists s, run race_run initial = Some s /\ s_crash s = true.
Proof. eexists. split; vm_compute; reflexivity. Qed.
Print Assumptions thread_detached_once_refuted.
