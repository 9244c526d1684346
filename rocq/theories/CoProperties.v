(** Coroutines that wait for processes: that processes of a category run one at a time, that coroutines which wait go on, and
    that a category is freed. *)
From Coq Require Import Permutation.
From Verif Require Import Base CoModel CoProofs CoLink CoWait.
Open Scope nat_scope.

(** ** running the model, for examples *)
Fixpoint take_one (x : nat) (l : list nat) : option (list nat) :=
  match l with [] => None | y :: r => if x =? y then Some r else match take_one x r with Some r' => Some (y :: r') | None => None end end.
Fixpoint perm_b (a b : list nat) : bool :=
  match a with [] => match b with [] => true | _ => false end | x :: a' => match take_one x b with Some b' => perm_b a' b' | None => false end end.
Lemma take_one_perm x : forall l r, take_one x l = Some r -> Permutation (x :: r) l.
Proof.
  induction l as [|y l IH]; intros r H; [discriminate|]. cbn [take_one] in H. destruct (x =? y) eqn:E; [injection H as <-; assert (x = y) as -> by lia; apply Permutation_refl|]. destruct (take_one x l) as [r'|]; [|discriminate]. injection H as <-. apply perm_trans with (y :: x :: r'); [apply perm_swap|]. apply perm_skip. now apply IH.
Qed.
Lemma perm_b_sound a : forall b, perm_b a b = true -> Permutation a b.
Proof. induction a as [|x a IH]; intros b H; cbn [perm_b] in H; [destruct b; [apply perm_nil|discriminate]|]. destruct (take_one x b) as [b'|] eqn:E; [|discriminate]. apply perm_trans with (x :: b'); [apply perm_skip; now apply IH|now apply take_one_perm]. Qed.
Definition do_event (s : st) (e : event) : option st :=
  match e with
  | ECreate cat until l => Some (create cat until l s)
  | ENewLine => Some (new_line s)
  | ECancel c => Some (change s c with_canceled)
  | ERemove c => Some (remove_co s c)
  | EOut y => match nth_error (s_procs s) y with Some p => if p_out p then None else Some (change_proc s y (fun p => mkP (p_cat p) (p_owner p) true (p_stat p) (p_need p))) | None => None end
  | EExit y => match nth_error (s_procs s) y with Some p => if p_out p && negb (p_stat p) then Some (set_idle (change_proc s y (fun p => mkP (p_cat p) (p_owner p) (p_out p) true (p_need p))) true) else None | None => None end
  | EWait => Some (release s)
  | EPassIdle order => if s_idle s && perm_b order (ids (purge s)) then Some (pass order (set_idle s false)) else None
  | EPassTimeout order => if due s && perm_b order (ids (purge (release s))) then Some (pass order (release s)) else None
  end.
Fixpoint do_run (s : st) (l : list event) : option st := match l with [] => Some s | e :: r => match do_event s e with Some s' => do_run s' r | None => None end end.
Lemma do_event_sound s e s' : do_event s e = Some s' -> step s e s'.
Proof.
  destruct e as [cat until l| |c|c|y|y| |order|order]; cbn [do_event]; intros H.
  - injection H as <-. constructor.
  - injection H as <-. constructor.
  - injection H as <-. constructor.
  - injection H as <-. constructor.
  - destruct (nth_error (s_procs s) y) as [p|] eqn:E; [|discriminate]. destruct (p_out p) eqn:O; [discriminate|]. injection H as <-. now apply (st_out s y p).
  - destruct (nth_error (s_procs s) y) as [p|] eqn:E; [|discriminate]. destruct (p_out p) eqn:O; [|discriminate]. destruct (p_stat p) eqn:T; [discriminate|]. injection H as <-. now apply (st_exit s y p).
  - injection H as <-. constructor.
  - destruct (s_idle s) eqn:E; [|discriminate]. destruct (perm_b order _) eqn:P; [|discriminate]. injection H as <-. apply st_idle; [exact E|now apply perm_b_sound].
  - destruct (due s) eqn:E; [|discriminate]. destruct (perm_b order _) eqn:P; [|discriminate]. injection H as <-. apply st_timeout; [exact E|now apply perm_b_sound].
Qed.
Lemma do_run_sound l : forall s s', do_run s l = Some s' -> run s l s'.
Proof. induction l as [|e l IH]; intros s s' H; cbn [do_run] in H; [injection H as <-; constructor|]. destruct (do_event s e) as [s1|] eqn:E; [|discriminate]. apply (run_step s e s1); [now apply do_event_sound|now apply IH]. Qed.

(** ** C102: the processes of a category run one at a time *)
(** process [y], of category [k], has not closed its output *)
Definition busy_process (s : st) (k y : nat) : Prop := exists p, nth_error (s_procs s) y = Some p /\ p_cat p = Some k /\ p_out p = false.

Theorem popen_one_at_a_time_partial : forall l s k y1 y2, run init l s -> Forall event_no_close l -> busy_process s k y1 -> busy_process s k y2 -> y1 = y2.
Proof.
  intros l s k y1 y2 R F (p1 & A1 & B1 & C1) (p2 & A2 & B2 & C2). pose proof (once_run _ _ _ R once_init F) as O. destruct (o_running _ O y1 p1 k A1 C1 B1) as [c1 D1]. destruct (o_running _ O y2 p2 k A2 C2 B2) as [c2 D2]. pose proof (o_key _ O k c1 y1 c2 y2 D1 D2) as E. now injection E as _ E.
Qed.
Print Assumptions popen_one_at_a_time_partial.

Definition two_of_a_kind : list event := [ECreate (Some 7) false [APopen]; ECreate (Some 7) false [APopen]; ECreate (Some 8) false [APopen]; EPassTimeout [0; 1; 2]; EOut 0; EPassTimeout [1; 0; 2]].
Example two_of_a_kind_run : exists s, run init two_of_a_kind s /\ Forall event_no_close two_of_a_kind /\ busy_process s 8 1 /\ busy_process s 7 2 /\ map p_cat (s_procs s) = [Some 7; Some 8; Some 7].
Proof.
  eexists. split; [apply do_run_sound; vm_compute; reflexivity|]. split; [apply Forall_forall; intros e H; cbn in H; repeat (destruct H as [<-|H]; [cbn; intuition discriminate|]); destruct H|].
  split; [eexists; split; [reflexivity|split; reflexivity]|]. split; [eexists; split; [reflexivity|split; reflexivity]|reflexivity].
Qed.

Definition overlap : list event :=
  [ECreate (Some 7) false [APopen; AClose]; ECreate (Some 7) false [APopen]; ECreate (Some 7) false [APopen]; EPassTimeout [0; 1; 2]; EOut 0; EWait; EPassTimeout [1; 0; 2]; EExit 0; EPassIdle [0; 2; 1]].
(** with pclose it is false: pclose takes the category over while another coroutine's process runs, and frees it *)
Theorem popen_one_at_a_time_refuted : exists l s k y1 y2, run init l s /\ Forall no_remove l /\ y1 <> y2 /\ busy_process s k y1 /\ busy_process s k y2.
Proof.
  exists overlap. eexists. exists 7, 1, 2. split; [apply do_run_sound; vm_compute; reflexivity|]. split; [apply Forall_forall; intros e H; cbn in H; repeat (destruct H as [<-|H]; [exact Logic.I|]); destruct H|]. split; [discriminate|].
  split; [eexists; split; [reflexivity|split; reflexivity]|eexists; split; [reflexivity|split; reflexivity]].
Qed.
Print Assumptions popen_one_at_a_time_refuted.

(** ** C103: a coroutine that waits goes on *)
(** nothing but processes and the waits for input *)
Definition by_itself (e : event) : Prop := match e with EOut _ | EExit _ | EWait | EPassIdle _ | EPassTimeout _ => True | _ => False end.

(** a coroutine that queued while its category's process ran is started when coroutines are resumed and the category is free *)
Theorem queued_goes_on_partial : forall l s b k e s', run init l s -> Forall event_no_close l -> Forall no_remove l ->
  queued_in s b k -> busy s (Some k) = false -> step s e s' -> (exists order, e = EPassIdle order \/ e = EPassTimeout order) -> exists y, busy_process s' k y.
Proof.
  intros l s b k e s' R F1 F2 Q B St (order & E). pose proof (once_run _ _ _ R once_init F1) as O. pose proof (lk_run _ _ _ R lk_init F2) as L.
  assert (X : running s' k).
  { destruct E as [-> | ->]; inversion St as [| | | | | | |o Id P|o D P]; subst.
    - apply (served_pass (set_idle s false) b k); [now apply lk_idle| |exact B|exact Q|now rewrite purge_idle]. constructor; [exact (o_running _ O)|exact (o_key _ O)|exact (o_need _ O)|exact (o_entries _ O)].
    - apply (served_pass (release s) b k); [now apply lk_release|now apply once_release| | |exact P].
      + revert B. apply free_subset. intros x. rewrite release_cyg. apply release_loop_kept.
      + apply (queued_core s); [apply core_release|apply release_misc|exact Q]. }
  destruct X as (y & p & X). exists y, p. exact X.
Qed.
Print Assumptions queued_goes_on_partial.

(** when nothing is due and no process has exited since, every coroutine waits for a process that has not exited, or is queued *)
Theorem only_the_queued_sleep_partial : forall l s e, run init l s -> Forall no_remove l -> s_idle s = false -> due s = false -> In e (s_entries s) ->
  (exists y p, waits (e_phase e) y /\ nth_error (s_procs s) y = Some p /\ p_stat p = false) \/ (exists r, e_phase e = Queue r).
Proof.
  intros l s e R F Id D H. pose proof (lk_run _ _ _ R lk_init F) as L. pose proof (calm_run _ _ _ R lk_init calm_init F) as C. pose proof (find_nodup _ e (k_ids _ _ L) H) as Fe.
  pose proof (core_release s (e_id e)) as CR. unfold core_of in CR. rewrite Fe in CR. destruct (find_entry (s_entries (release s)) (e_id e)) as [e'|] eqn:Fr; [|discriminate]. cbn [option_map] in CR. injection CR as _ _ _ _ PH _.
  destruct (lk_release None s L) as [L1 _]. assert (P : phase_ok e') by (apply (k_ph _ _ L1 (e_id e) e'); [discriminate|exact Fr]). destruct P as [P1 P2].
  destruct (e_guard e') as [y|] eqn:G.
  - left. destruct (e_phase e') as [r|r|z r|z r|] eqn:E; try discriminate.
    + destruct (c_good _ C Id (e_id e) e Fe z) as (p & A & B); [rewrite <- PH; reflexivity|]. exists z, p. rewrite <- PH. split; [reflexivity|]. split; [exact A|exact B].
    + destruct (c_good _ C Id (e_id e) e Fe z) as (p & A & B); [rewrite <- PH; reflexivity|]. exists z, p. rewrite <- PH. split; [reflexivity|]. split; [exact A|exact B].
  - right. assert (Q : e_queued e' = true). { destruct (e_queued e') eqn:Q; [reflexivity|]. exfalso. unfold due in D. assert (X : existsb (fun e => match e_guard e with None => negb (e_queued e) | Some _ => false end) (s_entries (release s)) = true) by (apply existsb_exists; exists e'; split; [now apply find_in in Fr|rewrite G, Q; reflexivity]). congruence. }
    destruct (P2 Q) as [r E]. exists r. congruence.
Qed.
Print Assumptions only_the_queued_sleep_partial.

Definition left_queued : list event := [ECreate (Some 7) false [APopen]; ECreate (Some 7) false [APopen]; EPassTimeout [0; 1]; EOut 0; EExit 0; EPassIdle [1; 0]].
Example queued_in_order : exists s, run init [ECreate (Some 7) false [APopen]; ECreate (Some 7) false [APopen]; EPassTimeout [0; 1]; EOut 0; EWait] s /\ queued_in s 1 7 /\ busy s (Some 7) = false /\ exists order s', step s (EPassTimeout order) s'.
Proof. eexists. split; [apply do_run_sound; vm_compute; reflexivity|]. split; [eexists; eexists; split; [vm_compute; reflexivity|]; split; [reflexivity|]; split; [reflexivity|]; split; reflexivity|]. split; [reflexivity|]. exists [1; 0]. eexists. apply do_event_sound. vm_compute. reflexivity. Qed.
Example some_sleep : exists s, run init [ECreate (Some 7) false [APopen]; ECreate (Some 7) false [APopen]; EPassTimeout [0; 1]] s /\ s_idle s = false /\ due s = false /\ length (s_entries s) = 2.
Proof. eexists. split; [apply do_run_sound; vm_compute; reflexivity|]. split; [reflexivity|]. split; reflexivity. Qed.

(** but a queued coroutine can be left behind: its category is free, no process runs, and nothing ever resumes it *)
Lemma stays_run s : (forall e s', step s e s' -> by_itself e -> s' = s) -> forall l s', run s l s' -> Forall by_itself l -> s' = s.
Proof. intros H l s' R. remember s as s0 eqn:E0. rewrite E0 in H. revert E0. induction R as [|s1 e s2 l s3 A R IH]; intros E F; [reflexivity|]. inversion F; subst. assert (s2 = s) as -> by (apply (H e); assumption). now apply IH. Qed.
Theorem queued_goes_on_refuted : exists l s b k, run init l s /\ Forall event_no_close l /\ Forall no_remove l /\ queued_in s b k /\ busy s (Some k) = false /\ Forall (fun p => p_stat p = true) (s_procs s) /\
  forall more s', run s more s' -> Forall by_itself more -> s' = s.
Proof.
  exists left_queued. eexists. exists 1, 7. split; [apply do_run_sound; vm_compute; reflexivity|]. split; [apply Forall_forall; intros e H; cbn in H; repeat (destruct H as [<-|H]; [cbn; intuition discriminate|]); destruct H|].
  split; [apply Forall_forall; intros e H; cbn in H; repeat (destruct H as [<-|H]; [exact Logic.I|]); destruct H|].
  split; [eexists; eexists; split; [vm_compute; reflexivity|]; split; [reflexivity|]; split; [reflexivity|]; split; reflexivity|]. split; [reflexivity|]. split; [constructor; [reflexivity|constructor]|].
  apply stays_run. intros e s' St By. destruct St as [cat until l| |c|c|y p A B|y p A B C| |order I1 P|order D P]; try destruct By.
  - destruct y as [|[|y]]; cbn in A; try discriminate. injection A as <-. discriminate.
  - destruct y as [|[|y]]; cbn in A; try discriminate. injection A as <-. discriminate.
  - reflexivity.
  - discriminate.
  - discriminate.
Qed.
Print Assumptions queued_goes_on_refuted.

(** ** C104: a category is freed *)
(** when release_coroutine_yieldguard has run, a category is taken only while its coroutine is there and waits for a process that is not done *)
Theorem category_freed_partial : forall l s k, run init l s -> Forall no_remove l -> busy (release s) (Some k) = true ->
  exists e y, In e (s_entries s) /\ waits (e_phase e) y /\ ready (s_procs s) y = false.
Proof.
  intros l s k R F B. pose proof (lk_run _ _ _ R lk_init F) as L. destruct (lk_release None s L) as [L1 N]. cbn [busy] in B. apply existsb_exists in B. destruct B as (x & X1 & X2). apply key_is_iff in X2. destruct X2 as (c & y & ->).
  pose proof (k_cyg _ _ L1 (Some k) c y X1) as G. unfold guard_of in G. destruct (find_entry (s_entries (release s)) c) as [e'|] eqn:Fr; [|discriminate]. injection G as G. assert (P : phase_ok e') by (apply (k_ph _ _ L1 c e'); [discriminate|exact Fr]). destruct P as [P1 _].
  pose proof (core_release s c) as CR. unfold core_of in CR. rewrite Fr in CR. destruct (find_entry (s_entries s) c) as [e|] eqn:Fe; [|discriminate]. cbn [option_map] in CR. injection CR as _ _ _ _ PH _.
  exists e, y. split; [now apply find_in in Fe|]. split; [|now apply (N (Some k) c)]. rewrite <- PH. destruct (e_phase e') as [r|r|z r|z r|]; try congruence; (destruct P1 as [P1|P1]; [congruence|cbn; congruence]).
Qed.
Print Assumptions category_freed_partial.
Example still_taken : exists s, run init [ECreate (Some 7) false [APopen]; EPassTimeout [0]; ENewLine] s /\ busy (release s) (Some 7) = true.
Proof. eexists. split; [apply do_run_sound; vm_compute; reflexivity|]. vm_compute. reflexivity. Qed.

(** *** and what clink.removecoroutine does *)
(** the category is held by a coroutine that is not there any more *)
Definition orphaned (s : st) (k : nat) : Prop := exists c y, In (Some k, c, y) (s_cyg s) /\ ~ In c (ids s) /\ c < s_next s.
Definition keeps (k : nat) (s s' : st) : Prop := orphaned s k -> orphaned s' k /\ exists r, map p_cat (s_procs s') = map p_cat (s_procs s) ++ r /\ ~ In (Some k) r.
Lemma keeps_trans k a b c : keeps k a b -> keeps k b c -> keeps k a c.
Proof. intros H1 H2 O. destruct (H1 O) as (O1 & r1 & E1 & N1). destruct (H2 O1) as (O2 & r2 & E2 & N2). split; [exact O2|]. exists (r1 ++ r2). split; [rewrite E2, E1; apply app_assoc_reverse|]. intros X. apply in_app_or in X. tauto. Qed.
Lemma keeps_same k s s' : (forall c y, In (Some k, c, y) (s_cyg s) -> ~ In c (ids s) -> In (Some k, c, y) (s_cyg s')) -> (forall c, c < s_next s -> In c (ids s') -> In c (ids s)) -> s_next s <= s_next s' -> map p_cat (s_procs s') = map p_cat (s_procs s) -> keeps k s s'.
Proof. intros A B C D (c & y & X1 & X2 & X3). split; [exists c, y; split; [now apply A|]; split; [intros X; apply X2; now apply B|lia]|]. exists []. split; [now rewrite app_nil_r|intros []]. Qed.
Lemma loop_orphan ps items : forall l k c y, In (k, c, y) items -> find_entry l c = None -> In (k, c, y) (snd (release_loop ps items l)).
Proof.
  induction items as [|[[k0 c0] y0] r IH]; intros l k c y H F; [destruct H|]. cbn [release_loop]. destruct (ready ps y0 && _) eqn:E.
  - apply IH; [destruct H as [H|H]; [|exact H]|].
    + injection H as -> -> ->. rewrite F, Bool.andb_false_r in E. discriminate.
    + assert (X : find_entry (upd l c0 (with_guard None)) c = None) by (rewrite find_upd by reflexivity; rewrite F; now destruct (c0 =? c)). destruct (find_dequeue k0 (upd l c0 (with_guard None)) c) as [Y|Y]; rewrite Y, X; reflexivity.
  - specialize (IH l k c y). destruct (release_loop ps r l) as [l' kept]. cbn [snd] in *. destruct H as [H|H]; [left; exact H|right; now apply IH].
Qed.
Lemma find_none l c : ~ In c (map e_id l) -> find_entry l c = None.
Proof. unfold find_entry. induction l as [|e l IH]; intros H; [reflexivity|]. cbn [find map] in *. destruct (e_id e =? c) eqn:E; [exfalso; apply H; left; lia|]. apply IH. intros X. apply H. now right. Qed.
Lemma keeps_release k s : keeps k s (release s).
Proof.
  destruct (release_misc s) as (_ & M & _). apply keeps_same; [|intros c _; now rewrite ids_release|lia|now rewrite release_procs]. intros c y X N. rewrite release_cyg. apply loop_orphan; [exact X|]. now apply find_none.
Qed.
Lemma keeps_change k s c f : (forall e, e_id (f e) = e_id e) -> keeps k s (change s c f).
Proof. intros F. apply keeps_same; [auto|intros d _; now rewrite ids_change|reflexivity|reflexivity]. Qed.
Lemma keeps_end k s c : keeps k s (end_guard s c).
Proof. unfold end_guard. eapply keeps_trans; [apply keeps_release|now apply keeps_change]. Qed.
Lemma orphan_busy s k : orphaned s k -> busy s (Some k) = true.
Proof. intros (c & y & X & _). cbn [busy]. apply existsb_exists. exists (Some k, c, y). split; [exact X|]. cbn. apply Nat.eqb_refl. Qed.
Lemma keeps_start k s c l : busy s (cat_of s c) = false -> keeps k s (start s c l).
Proof.
  intros B O. pose proof (orphan_busy s k O) as OB. destruct O as (d & y & X1 & X2 & X3). unfold cat_of in B. destruct (find_entry (s_entries s) c) as [e|] eqn:F.
  - destruct (current s e) eqn:C.
    + assert (K : e_cat e <> Some k) by (intros E; rewrite E in B; congruence). split.
      * exists d, y. split; [|split; [now rewrite ids_start|]]; unfold start; rewrite F, C; unfold set_guard, change, set_cyg, set_entries, set_procs; cbn [s_cyg s_next]; [|exact X3]. destruct (e_cat e) as [j|]; [|apply in_or_app; now left]. right. apply filter_In. split; [exact X1|]. cbn. replace (k =? j) with false; [reflexivity|]. destruct (k =? j) eqn:E; [exfalso; apply K; f_equal; lia|reflexivity].
      * exists [e_cat e]. unfold start. rewrite F, C. unfold set_guard, change, set_cyg, set_entries, set_procs. cbn [s_procs]. rewrite map_app. split; [reflexivity|]. intros [E|[]]. congruence.
    + unfold start. rewrite F, C. apply (keeps_change k s c (fun e => with_canceled (with_phase Dead e))); [reflexivity|]. exists d, y. auto.
  - unfold start. rewrite F. split; [exists d, y; auto|]. exists []. split; [now rewrite app_nil_r|intros []].
Qed.
Lemma keeps_exec k l s c : ~ In AClose l -> keeps k s (exec l s c).
Proof. intros N. destruct l as [|[| |] l0]; cbn [exec]; [now apply keeps_change| |exfalso; apply N; now left|now apply keeps_change]. destruct (busy s (cat_of s c)) eqn:B; [now apply keeps_change|now apply keeps_start]. Qed.
Lemma keeps_refl k s : keeps k s s.
Proof. apply keeps_same; auto. Qed.
Lemma keeps_resume k s c : once s -> keeps k s (resume s c).
Proof.
  intros O. unfold resume. destruct (find_entry (s_entries s) c) as [e|] eqn:F; [|apply keeps_refl]. assert (NC : no_close e). { apply find_in in F. pose proof (o_entries _ O) as X. rewrite Forall_forall in X. now apply X. }
  unfold no_close in NC. destruct (e_phase e) as [l|l|y l|y l|]; cbn [acts_of] in NC.
  - now apply keeps_exec.
  - destruct (e_canceled e); [eapply keeps_trans; [|now apply keeps_exec]; now apply keeps_change|]. destruct (busy s (e_cat e)) eqn:B; [apply keeps_refl|]. eapply keeps_trans; [|apply keeps_start]; [now apply keeps_change|]. rewrite cat_of_change by reflexivity. unfold cat_of. rewrite F. exact B.
  - destruct (ready _ _); [|apply keeps_refl]. eapply keeps_trans; [|now apply keeps_exec]. eapply keeps_trans; [apply keeps_end|now apply keeps_change].
  - destruct (ready _ _); [|apply keeps_refl]. eapply keeps_trans; [|now apply keeps_exec]. apply keeps_end.
  - apply keeps_refl.
Qed.
Lemma keeps_resumes k l : forall s, once s -> keeps k s (fold_left resume l s).
Proof. induction l as [|c l IH]; intros s O; [apply keeps_refl|]. cbn [fold_left]. eapply keeps_trans; [now apply keeps_resume|]. apply IH. now apply once_resume. Qed.
Lemma keeps_remove k s c : keeps k s (remove_co s c).
Proof.
  eapply keeps_trans; [apply keeps_release|]. unfold remove_co. apply keeps_same; [auto| |reflexivity|reflexivity]. intros d _ X. unfold ids in *. cbn [set_entries s_entries] in X. apply in_map_iff in X. destruct X as (e & E1 & E2). apply filter_In in E2. apply in_map_iff. exists e. tauto.
Qed.
Lemma keeps_removes k l : forall s, keeps k s (fold_left remove_co l s).
Proof. induction l as [|c l IH]; intros s; [apply keeps_refl|]. cbn [fold_left]. eapply keeps_trans; [apply keeps_remove|apply IH]. Qed.
Lemma keeps_pass k order s : once s -> keeps k s (pass order s).
Proof. intros O. unfold pass, purge. cbv zeta. eapply keeps_trans; [|apply keeps_removes]. eapply keeps_trans; [apply keeps_removes|]. apply keeps_resumes. now apply once_removes. Qed.
Lemma cat_change_proc s y f : (forall p, p_cat (f p) = p_cat p) -> map p_cat (s_procs (change_proc s y f)) = map p_cat (s_procs s).
Proof.
  intros F. unfold change_proc, set_procs. cbn [s_procs]. rewrite map_map. assert (X : forall l k, map (fun x : nat * proc => p_cat (let '(i, p) := x in if i =? y then f p else p)) (combine (seq k (length l)) l) = map p_cat l); [|apply X].
  induction l as [|p l IH]; intros k; [reflexivity|]. cbn [length seq combine map]. rewrite IH. f_equal. destruct (k =? y); [apply F|reflexivity].
Qed.
Lemma keeps_step k s e s' : once s -> step s e s' -> keeps k s s'.
Proof.
  intros O St. destruct St as [cat until l| |c|c|y p A B|y p A B C| |order I1 P|order D P].
  - apply keeps_same; [auto| |cbn; lia|reflexivity]. intros c L. unfold ids, create. cbn [s_entries]. rewrite map_app. intros X. apply in_app_or in X. destruct X as [X|[X|[]]]; [exact X|cbn in X; lia].
  - apply keeps_same; [auto| |reflexivity|reflexivity]. intros c _. unfold ids, new_line. cbn [s_entries]. intros X. apply in_map_iff in X. destruct X as (e & E1 & E2). apply filter_In in E2. apply in_map_iff. exists e. tauto.
  - now apply keeps_change.
  - apply keeps_remove.
  - apply keeps_same; [auto|auto|reflexivity|]. now apply cat_change_proc.
  - apply keeps_same; [auto|auto|reflexivity|]. cbn [set_idle s_procs]. now apply cat_change_proc.
  - apply keeps_release.
  - eapply keeps_trans; [|apply keeps_pass]; [apply keeps_same; auto|]. constructor; [exact (o_running _ O)|exact (o_key _ O)|exact (o_need _ O)|exact (o_entries _ O)].
  - eapply keeps_trans; [apply keeps_release|]. apply keeps_pass. now apply once_release.
Qed.
(** once a coroutine that holds a category has been removed, the category is never free again, and no process of it is ever started *)
Theorem removed_blocks_category : forall l s k more s', run init l s -> Forall event_no_close l -> orphaned s k -> run s more s' -> Forall event_no_close more ->
  busy s' (Some k) = true /\ forall y p, nth_error (s_procs s') y = Some p -> p_cat p = Some k -> exists q, nth_error (s_procs s) y = Some q.
Proof.
  intros l s k more s' R0 F0 O0 R F. pose proof (once_run _ _ _ R0 once_init F0) as On. clear R0 F0. assert (K : keeps k s s'). { clear O0. revert On F. induction R as [s|s e s1 r s2 A R IH]; intros On F; [apply keeps_refl|]. inversion F; subst. apply keeps_trans with s1; [now apply (keeps_step k s e)|]. apply IH; [now apply (once_step s e)|assumption]. }
  destruct (K O0) as (O1 & r & E & N). split; [now apply orphan_busy|]. intros y p P C. destruct (nth_error (s_procs s) y) as [q|] eqn:Q; [eauto|exfalso]. apply nth_error_None in Q. apply (map_nth_error p_cat) in P. rewrite E, nth_error_app2 in P by (rewrite map_length; exact Q). apply N. apply nth_error_In in P. now rewrite <- C.
Qed.
Print Assumptions removed_blocks_category.

(** the coroutine is removed while its process runs; the process ends; the next one of the category stays queued *)
Definition removed_early : list event := [ECreate (Some 7) false [APopen]; EPassTimeout [0]; ERemove 0; EOut 0; EExit 0; ECreate (Some 7) false [APopen]; EPassIdle [1]].
Example removed_early_run : exists s, run init removed_early s /\ orphaned s 7 /\ queued_in s 1 7 /\ Forall (fun p => p_stat p = true) (s_procs s).
Proof.
  eexists. split; [apply do_run_sound; vm_compute; reflexivity|]. split; [exists 0, 0; split; [now left|]; split; [vm_compute; intros [X|[]]; discriminate|cbn; lia]|].
  split; [eexists; eexists; split; [vm_compute; reflexivity|]; split; [reflexivity|]; split; [reflexivity|]; split; reflexivity|]. constructor; [reflexivity|constructor].
Qed.
(** so a category can stay taken though nothing runs *)
Theorem category_freed_refuted : exists l s k, run init l s /\ Forall event_no_close l /\ Forall (fun p => p_stat p = true) (s_procs s) /\ forall more s', run s more s' -> Forall event_no_close more -> busy s' (Some k) = true.
Proof.
  destruct removed_early_run as (s & R & O & _ & P). exists removed_early, s, 7. assert (F : Forall event_no_close removed_early) by (apply Forall_forall; intros e H; cbn in H; repeat (destruct H as [<-|H]; [cbn; intuition discriminate|]); destruct H).
  split; [exact R|]. split; [exact F|]. split; [exact P|]. intros more s' R' F'. exact (proj1 (removed_blocks_category _ _ _ _ _ R F O R' F')).
Qed.
Print Assumptions category_freed_refuted.
