(** C17: history locking cannot deadlock. *)
From Verif Require Import Base HistLocksModel HistLocksProofs.

(** Any number of processes, each performing any sequence of operations, under any schedule. *)
Definition system (hs : list (handles * list op)) : list pst := map (fun h => start (fst h) (snd h)) hs.

Definition finished (p : pst) : Prop := todo p = [] /\ held p = [].

(** If no process can make a step, every process is finished and holds no lock. *)
Theorem c17_no_deadlock : forall hs is, let ps := schedule (system hs) is in
  (forall i, pstep ps i = None) -> Forall finished ps.
Proof. intros hs is ps H. apply progress; auto. apply (safe_schedule is). apply safe_start. Qed.
Print Assumptions c17_no_deadlock.

(** Every effective step makes the remaining work smaller, so no schedule runs forever; and from every state all
    operations can be completed. *)
Theorem c17_steps_bounded : forall ps i ps', pstep ps i = Some ps' -> left_over ps = S (left_over ps').
Proof. exact pstep_less. Qed.
Theorem c17_can_finish : forall hs is, exists is', Forall finished (schedule (schedule (system hs) is) is').
Proof. intros hs is. eapply can_finish; [apply le_n|]. apply safe_schedule. apply safe_start. Qed.
Print Assumptions c17_can_finish.

(** While a process holds a lock exclusively no other process holds the same lock: the lock scopes are atomic
    (assumed by HistWorldModel.v). *)
Theorem c17_exclusive : forall hs is i j p q l m, let ps := schedule (system hs) is in
  i <> j -> nth_error ps i = Some p -> nth_error ps j = Some q -> In (l, Ex) (held p) -> ~ In (l, m) (held q).
Proof.
  intros hs is i j p q l m ps Hne Ep Eq Hp Hq.
  destruct (safe_schedule is _ (safe_start hs)) as [_ H]. destruct (H i j p q Hne Ep Eq l Ex m Hp Hq). discriminate.
Qed.
Print Assumptions c17_exclusive.

(** Non-vacuity: three sessions, one of them compacting, interleaved so that others wait. *)
Definition ex_sys : list (handles * list op) :=
  [(mkH 0 true true, [OInit false; OLoad; ORemoveText; OAppend]);
   (mkH 1 true false, [OReap [(2, true)]; OCompact [0; 1]]);
   (mkH 3 false false, [OFind false; OAppend])].
Example c17_example_blocked : let ps := schedule (system ex_sys) [0; 0; 0; 2; 2; 2] in
  pstep ps 1 = None /\ map (fun p => length (todo p)) ps <> [0; 0; 0].
Proof. vm_compute. split; [reflexivity|discriminate]. Qed.
Example c17_example_done :
  Forall finished (schedule (system ex_sys) (flat_map (fun _ => [1; 0; 2]) (repeat tt 40))).
Proof. vm_compute. repeat constructor. Qed.

(** Taking the session's lines before the master instead would deadlock against a compacting process. *)
Example c17_order_matters : exists is, let ps := schedule
   [mkPst [] [Acq (LS 0) Ex; Acq LM Ex; Rel LM; Rel (LS 0)]; start (mkH 1 true false) [OCompact [0]]] is in
   (forall i, pstep ps i = None) /\ ~ Forall finished ps.
Proof.
  exists [0; 1]. split.
  - intros [|[|i]]; try reflexivity. destruct i; reflexivity.
  - intro H. apply Forall_inv in H. destruct H as [H _]. discriminate.
Qed.
