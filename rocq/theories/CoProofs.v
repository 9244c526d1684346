From Coq Require Import Permutation.
From Verif Require Import Base CoModel.
Open Scope nat_scope.

(** ** processes and the table of yieldguards *)
Lemma nth_change_proc s y f i : nth_error (s_procs (change_proc s y f)) i = match nth_error (s_procs s) i with Some p => Some (if i =? y then f p else p) | None => None end.
Proof.
  unfold change_proc, set_procs. cbn [s_procs]. rewrite nth_error_map. assert (X : forall (l : list proc) k i, nth_error (combine (seq k (length l)) l) i = match nth_error l i with Some p => Some (k + i, p) | None => None end).
  { clear. induction l as [|p l IH]; intros k i; [destruct i; reflexivity|]. destruct i as [|i]; cbn [length seq combine nth_error]; [now rewrite Nat.add_0_r|]. rewrite IH. destruct (nth_error l i); [|reflexivity]. f_equal. f_equal. lia. }
  rewrite X. destruct (nth_error (s_procs s) i); reflexivity.
Qed.
Lemma release_loop_kept ps : forall items l x, In x (snd (release_loop ps items l)) -> In x items.
Proof. induction items as [|[[k c] y] r IH]; intros l x H; [destruct H|]. cbn [release_loop] in H. destruct (_ && _) in H; [right; now apply (IH _ _ H)|]. specialize (IH l x). destruct (release_loop ps r l) as [l' kept]. cbn [snd] in *. destruct H as [->|H]; [now left|right; now apply IH]. Qed.
Lemma release_loop_keeps ps : forall items l k c y, In (k, c, y) items -> ready ps y = false -> In (k, c, y) (snd (release_loop ps items l)).
Proof. induction items as [|[[k' c'] y'] r IH]; intros l k c y H R; [destruct H|]. cbn [release_loop]. destruct H as [E|H]. - injection E as -> -> ->. rewrite R. cbn [andb]. destruct (release_loop ps r l). cbn [snd]. now left. - destruct (_ && _); [now apply IH|]. specialize (IH l k c y H R). destruct (release_loop ps r l). cbn [snd] in *. now right. Qed.
Lemma release_procs s : s_procs (release s) = s_procs s.
Proof. unfold release. destruct (release_loop _ _ _); reflexivity. Qed.
Lemma release_cyg s : s_cyg (release s) = snd (release_loop (s_procs s) (s_cyg s) (s_entries s)).
Proof. unfold release. destruct (release_loop _ _ _); reflexivity. Qed.
Lemma release_entries s : s_entries (release s) = fst (release_loop (s_procs s) (s_cyg s) (s_entries s)).
Proof. unfold release. destruct (release_loop _ _ _); reflexivity. Qed.
Lemma release_misc s : s_gen (release s) = s_gen s /\ s_next (release s) = s_next s /\ s_idle (release s) = s_idle s.
Proof. unfold release. destruct (release_loop _ _ _); auto. Qed.

(** no pclose anywhere *)
Definition acts_of (p : phase) : list act := match p with Run l | Queue l | Guard _ l | Closing _ l => l | Dead => [] end.
Definition no_close (e : entry) : Prop := ~ In AClose (acts_of (e_phase e)).
(** ** one process at a time: the invariant *)
Record once (s : st) : Prop := mkOnce {
  o_running : forall y p k, nth_error (s_procs s) y = Some p -> p_out p = false -> p_cat p = Some k -> exists c, In (Some k, c, y) (s_cyg s);
  o_key : forall k c y c' y', In (Some k, c, y) (s_cyg s) -> In (Some k, c', y') (s_cyg s) -> (c, y) = (c', y');
  o_need : forall y p, nth_error (s_procs s) y = Some p -> p_need p = false;
  o_entries : Forall no_close (s_entries s) }.
Lemma ready_out s y p : once s -> nth_error (s_procs s) y = Some p -> ready (s_procs s) y = p_out p.
Proof. intros O H. unfold ready. rewrite H. now rewrite (o_need _ O _ _ H). Qed.
Lemma forall_upd (P : entry -> Prop) l c f : Forall P l -> (forall e, P e -> P (f e)) -> Forall P (upd l c f).
Proof. intros H F. unfold upd. apply Forall_forall. intros x X. apply in_map_iff in X. destruct X as (e & E & X). rewrite Forall_forall in H. specialize (H e X). destruct (e_id e =? c); subst x; auto. Qed.
Lemma forall_upd2 (P : entry -> Prop) l c f : Forall P l -> (forall e, P (f e)) -> Forall P (upd l c f).
Proof. intros H F. apply forall_upd; auto. Qed.
Lemma dequeue_forall (P : entry -> Prop) k l : Forall P l -> (forall e, P e -> P (with_queued false e)) -> Forall P (dequeue k l).
Proof. intros H F. induction H as [|e l A B IH]; [constructor|]. cbn [dequeue]. destruct (_ && _); constructor; auto. Qed.
Lemma release_forall (P : entry -> Prop) ps items : forall l, Forall P l -> (forall e, P e -> P (with_queued false e)) -> (forall e, P e -> P (with_guard None e)) -> Forall P (fst (release_loop ps items l)).
Proof. induction items as [|[[k c] y] r IH]; intros l H F G; [exact H|]. cbn [release_loop]. destruct (_ && _); [apply IH; auto; apply dequeue_forall; auto; now apply forall_upd|]. specialize (IH l H F G). now destruct (release_loop ps r l). Qed.
Lemma once_release s : once s -> once (release s).
Proof.
  intros O. constructor.
  - intros y p k. rewrite release_procs. intros A B C. destruct (o_running _ O y p k A B C) as [c D]. exists c. rewrite release_cyg. apply release_loop_keeps; [exact D|]. now rewrite (ready_out s y p O A).
  - intros k c y c' y'. rewrite release_cyg. intros A B. apply release_loop_kept in A, B. now apply (o_key _ O k).
  - rewrite release_procs. apply (o_need _ O).
  - rewrite release_entries. apply release_forall; [apply (o_entries _ O)| |]; intros e X; exact X.
Qed.
Lemma once_change s c f : once s -> (forall e, no_close e -> no_close (f e)) -> once (change s c f).
Proof. intros O F. constructor; [exact (o_running _ O)|exact (o_key _ O)|exact (o_need _ O)|]. cbn. apply forall_upd; [apply (o_entries _ O)|exact F]. Qed.
Lemma once_entries s l : once s -> Forall no_close l -> once (set_entries s l).
Proof. intros O F. constructor; [exact (o_running _ O)|exact (o_key _ O)|exact (o_need _ O)|exact F]. Qed.
Lemma once_remove s c : once s -> once (remove_co s c).
Proof. intros O. unfold remove_co. apply once_release in O. apply once_entries; [exact O|]. pose proof (o_entries _ O) as F. rewrite Forall_forall in *. intros x X. apply filter_In in X. now apply F. Qed.
Lemma once_removes l : forall s, once s -> once (fold_left remove_co l s).
Proof. induction l as [|c l IH]; intros s O; [exact O|]. apply IH, once_remove, O. Qed.
Lemma once_end s c : once s -> once (end_guard s c).
Proof. intros O. apply once_change; [now apply once_release|auto]. Qed.
Lemma key_is_iff k x : key_is k x = true <-> exists c y, x = (Some k, c, y).
Proof. destruct x as [[[j|] c] y]; cbn [key_is]; [rewrite Nat.eqb_eq; split; [intros ->; eauto|intros (c' & y' & E); injection E as E _ _; exact E]|split; [discriminate|intros (c' & y' & E); discriminate]]. Qed.
Lemma not_busy s k : busy s (Some k) = false -> forall c y, ~ In (Some k, c, y) (s_cyg s).
Proof. intros B c y X. cbn [busy] in B. assert (E : existsb (key_is k) (s_cyg s) = true) by (apply existsb_exists; exists (Some k, c, y); split; [exact X|apply key_is_iff; eauto]). congruence. Qed.
Lemma find_in l c e : find_entry l c = Some e -> In e l /\ e_id e = c.
Proof. unfold find_entry. intros H. apply find_some in H. destruct H as [A B]. apply Nat.eqb_eq in B. auto. Qed.
Lemma once_start s c l : once s -> busy s (cat_of s c) = false -> ~ In AClose l -> once (start s c l).
Proof.
  intros O B L. unfold start, cat_of in *. destruct (find_entry (s_entries s) c) as [e|] eqn:F; [|exact O]. destruct (current s e).
  - unfold set_guard, change, set_procs, set_cyg, set_entries. cbn [s_entries s_cyg s_procs]. constructor; cbn [s_entries s_cyg s_procs].
    + intros y p k A P C. destruct (Nat.eq_dec y (length (s_procs s))) as [->|Ny].
      * rewrite nth_error_app2 in A by lia. rewrite Nat.sub_diag in A. injection A as <-. cbn [p_cat] in C. rewrite C. exists c. now left.
      * assert (Z : y < length (s_procs s)). { assert (Z : y < length (s_procs s ++ [mkP (e_cat e) c false false false])) by (apply nth_error_Some; congruence). rewrite app_length in Z. cbn [length] in Z. lia. }
        rewrite nth_error_app1 in A by exact Z.
        destruct (o_running _ O y p k A P C) as [d D]. exists d. destruct (e_cat e) as [k'|] eqn:E; [|apply in_or_app; now left]. destruct (Nat.eq_dec k k') as [->|Nk]; [exfalso; now apply (not_busy s k' B d y)|]. right. apply filter_In. split; [exact D|]. cbn [key_is]. lia.
    + intros k c1 y1 c2 y2 X Y. destruct (e_cat e) as [k'|] eqn:E.
      * destruct X as [X|X], Y as [Y|Y].
        -- congruence.
        -- injection X as X1 X2 X3. apply filter_In in Y. destruct Y as [_ Y]. cbn [key_is] in Y. lia.
        -- injection Y as X1 X2 X3. apply filter_In in X. destruct X as [_ X]. cbn [key_is] in X. lia.
        -- apply filter_In in X, Y. apply (o_key _ O k); tauto.
      * apply in_app_or in X, Y. destruct X as [X|[X|[]]]; [|discriminate]. destruct Y as [Y|[Y|[]]]; [|discriminate]. now apply (o_key _ O k).
    + intros y p A. destruct (Nat.lt_ge_cases y (length (s_procs s))) as [Z|Z]; [rewrite nth_error_app1 in A by exact Z; now apply (o_need _ O y p)|]. rewrite nth_error_app2 in A by exact Z. destruct (y - length (s_procs s)) as [|[|n]]; [injection A as <-; reflexivity|discriminate|discriminate].
    + apply forall_upd2; [|intros x; exact L]. apply forall_upd; [apply (o_entries _ O)|auto].
  - apply once_change; [exact O|]. intros x _. unfold no_close. cbn. tauto.
Qed.
Lemma once_exec l : forall s c, once s -> ~ In AClose l -> once (exec l s c).
Proof.
  intros s c O L. destruct l as [|[| |] l]; cbn [exec].
  - apply once_change; [exact O|]. intros e _ X. exact X.
  - assert (L' : ~ In AClose l) by (intros X; apply L; now right). destruct (busy s (cat_of s c)) eqn:B; [apply once_change; [exact O|]; intros e _ X; apply L'; exact X|now apply once_start].
  - exfalso. apply L. now left.
  - apply once_change; [exact O|]. intros e _ X. apply L. right. exact X.
Qed.
Lemma cat_of_change s c f d : (forall e, e_id (f e) = e_id e) -> (forall e, e_cat (f e) = e_cat e) -> cat_of (change s c f) d = cat_of s d.
Proof.
  intros F G. unfold cat_of, change, set_entries, find_entry, upd. cbn [s_entries]. induction (s_entries s) as [|e l IH]; [reflexivity|]. cbn [map find]. destruct (e_id e =? c) eqn:E; [rewrite F; destruct (e_id e =? d); [apply G|exact IH]|]. destruct (e_id e =? d); [reflexivity|exact IH].
Qed.
Lemma once_resume s c : once s -> once (resume s c).
Proof.
  intros O. unfold resume. destruct (find_entry (s_entries s) c) as [e|] eqn:F; [|exact O]. assert (NC : no_close e). { apply find_in in F. pose proof (o_entries _ O) as X. rewrite Forall_forall in X. now apply X. }
  unfold no_close in NC. destruct (e_phase e) as [l|l|y l|y l|] eqn:P; cbn [acts_of] in NC.
  - now apply once_exec.
  - destruct (e_canceled e); [apply once_exec; [now apply once_change; auto|exact NC]|]. destruct (busy s (e_cat e)) eqn:B; [exact O|]. apply once_start; [now apply once_change; auto| |exact NC]. rewrite cat_of_change by reflexivity. unfold cat_of. rewrite F. exact B.
  - destruct (ready _ _); [|exact O]. apply once_exec; [|exact NC]. apply once_change; [now apply once_end|auto].
  - destruct (ready _ _); [|exact O]. apply once_exec; [|exact NC]. now apply once_end.
  - exact O.
Qed.
Lemma once_resumes l : forall s, once s -> once (fold_left resume l s).
Proof. induction l as [|c l IH]; intros s O; [exact O|]. apply IH, once_resume, O. Qed.
Lemma once_pass order s : once s -> once (pass order s).
Proof. intros O. unfold pass. apply once_removes, once_resumes. unfold purge. now apply once_removes. Qed.
Definition event_no_close (e : event) : Prop := match e with ECreate _ _ l => ~ In AClose l | _ => True end.
Lemma once_step s e s' : once s -> event_no_close e -> step s e s' -> once s'.
Proof.
  intros O N St. destruct St as [cat until l| |c|c|y p A B|y p A B C| |order I1 P|order D P].
  - constructor; [exact (o_running _ O)|exact (o_key _ O)|exact (o_need _ O)|]. cbn. apply Forall_app. split; [apply (o_entries _ O)|]. constructor; [exact N|constructor].
  - constructor; [exact (o_running _ O)|exact (o_key _ O)|exact (o_need _ O)|]. cbn. pose proof (o_entries _ O) as F. rewrite Forall_forall in *. intros x X. apply filter_In in X. now apply F.
  - apply once_change; auto.
  - now apply once_remove.
  - constructor; [|exact (o_key _ O)| |exact (o_entries _ O)].
    + intros z q k. rewrite nth_change_proc. destruct (nth_error (s_procs s) z) as [r|] eqn:E; [|discriminate]. intros X. injection X as <-. destruct (z =? y); [discriminate|]. intros Q K. now apply (o_running _ O z r k).
    + intros z q. rewrite nth_change_proc. destruct (nth_error (s_procs s) z) as [r|] eqn:E; [|discriminate]. intros X. injection X as <-. pose proof (o_need _ O z r E). destruct (z =? y); exact H.
  - constructor; [|exact (o_key _ O)| |exact (o_entries _ O)].
    + intros z q k. cbn [set_idle s_procs]. rewrite nth_change_proc. destruct (nth_error (s_procs s) z) as [r|] eqn:E; [|discriminate]. intros X. injection X as <-. intros Q K. apply (o_running _ O z r k E); destruct (z =? y); assumption.
    + intros z q. cbn [set_idle s_procs]. rewrite nth_change_proc. destruct (nth_error (s_procs s) z) as [r|] eqn:E; [|discriminate]. intros X. injection X as <-. pose proof (o_need _ O z r E). destruct (z =? y); exact H.
  - now apply once_release.
  - apply once_pass. constructor; [exact (o_running _ O)|exact (o_key _ O)|exact (o_need _ O)|exact (o_entries _ O)].
  - now apply once_pass, once_release.
Qed.
Lemma once_run s l s' : run s l s' -> once s -> Forall event_no_close l -> once s'.
Proof. induction 1 as [|s e s1 l s2 A R IH]; intros O F; [exact O|]. inversion F; subst. apply IH; [|assumption]. now apply (once_step s e). Qed.
Lemma once_init : once init.
Proof. constructor; cbn; [intros [|y]; discriminate|contradiction|intros [|y]; discriminate|constructor]. Qed.
