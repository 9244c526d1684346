(** C50: the background recognizer, in every interleaving of its two threads. *)
From Verif Require Import Base RecModel RecSpec RecProofs.
Open Scope N_scope.

Section C50.
Variable world : Type.
Variable search : world -> str -> str -> str * N.
Notation st := (st world). Notation act := (act world).
Notation step := (step world search). Notation run := (run world search). Notation worker := (worker world search). Notation editor := (editor world).
Notation find := (find world). Notation reachable := (reachable world search). Notation quiet := (quiet world). Notation workers := (workers world).
Notation answered := (answered world search). Notation later := (later world search).

Lemma reach_inv s : reachable s -> inv world s.
Proof. intros (w & t & R). exact (inv_run world search t _ _ (inv_init world w) R). Qed.
Lemma find_hit s k r f : find s k = (1%Z, r, f) -> usable _ s = true /\ get (cache _ s) k = Some (mkC f r false).
Proof.
  unfold RecModel.find. destruct (usable _ s) eqn:U.
  - destruct (get (cache _ s) k) as [[f0 r0 [|]]|]; cbn [c_old c_rec c_file]; destruct (get (pending _ s) k); intro H; inversion H; subst; auto.
  - intro H. inversion H.
Qed.

(** A result that the editor gets for a word is that of a search, at some moment after the word was enqueued, for a word
    enqueued under that key. *)
Theorem c50_sound w t s k r f : run (init _ w) t = Some s -> find s k = (1%Z, r, f) -> answered (init _ w) t k f r.
Proof.
  intros R F. apply find_hit in F as [_ F]. assert (S0 : sound world search (init _ w) [] (init _ w)) by (split; [discriminate|split; [discriminate|exact I]]).
  exact (proj1 (sound_run world search _ _ _ S0 R) k _ F eq_refl).
Qed.

(** The newest request is not lost: with no other request made, whatever else happens, the worker takes at most 12 steps
    until it waits, and then the word has the result of a search made after it was enqueued. *)
Theorem c50_newest s k w c x s1 t s' : reachable s -> usable _ s = true -> step s (Enqueue _ k w c x) = Some s1 -> forallb quiet t = true -> run s1 t = Some s' ->
  (workers t <= 12)%nat /\ (worker s' = None -> exists f r, find s' k = (1%Z, r, f) /\ later s1 t w c f r).
Proof.
  intros Re U E Q R. pose proof (reach_inv _ Re) as I0. unfold usable in U. apply negb_true_iff in U. split; [pose proof (mu_run _ _ _ _ _ Q R); pose proof (mu_bound _ s1); lia|].
  intro B. pose proof (newest_run _ _ _ _ _ _ _ _ Q (newest_start _ search _ _ _ _ _ _ I0 U E) R) as (Z & W & H). assert (I' : inv _ s') by (exact (inv_run _ _ t _ _ (inv_step _ _ _ _ _ I0 E) R)).
  destruct (blocked _ search _ I' W B) as (_ & P & Qn & _). destruct H as [[H _]|[(_ & H & _)|(_ & _ & f & r & G & L)]]; [congruence|congruence|]. exists f, r. split; [|exact L]. unfold RecModel.find, usable. rewrite Z. cbn [negb]. rewrite G. reflexivity.
Qed.

(** With no other request, the worker takes at most 12 steps until it waits or has returned, and then nothing is queued or
    pending and the editor is never told that a result is pending. *)
Theorem c50_idle s t s' : reachable s -> forallb quiet t = true -> run s t = Some s' ->
  (workers t <= 12)%nat /\ (worker s' = None -> queue _ s' = None /\ pending _ s' = [] /\ processing _ s' = false /\ forall k, fst (fst (find s' k)) <> (-1)%Z).
Proof.
  intros Re Q R. pose proof (inv_run _ _ t _ _ (reach_inv _ Re) R) as I'. split; [pose proof (mu_run _ _ _ _ _ Q R); pose proof (mu_bound _ s); lia|]. intro B.
  assert (X : processing _ s' = false /\ pending _ s' = [] /\ queue _ s' = None).
  { destruct (wp _ s') eqn:W; [destruct I' as (I1 & _); unfold winv in I1; rewrite W in I1; tauto| | | | | | |]; (destruct (blocked _ search _ I' ltac:(congruence) B) as (A1 & A2 & A3 & _); tauto). }
  destruct X as (X1 & X2 & X3). split; [exact X3|]. split; [exact X2|]. split; [exact X1|]. intro k. unfold RecModel.find. rewrite X2. cbn [get]. destruct (usable _ s'); [|cbn; lia]. destruct (get (cache _ s') k) as [v|]; [destruct (c_old v)|]; cbn; lia.
Qed.

(** wait_while_busy ends: the worker takes at most 12 steps until it waits, and then the editor thread returns within 3. *)
Theorem c50_wait s t s' : reachable s -> forallb quiet t = true -> run s t = Some s' -> In (mp _ s') [MProc; MPend; MReady] ->
  (workers t <= 12)%nat /\ (worker s' = None -> exists n s'', (n <= 3)%nat /\ run s' (repeat (Editor _) n) = Some s'' /\ mp _ s'' = MIdle).
Proof.
  intros Re Q R M. destruct (c50_idle _ _ _ Re Q R) as [Hw Hi]. split; [exact Hw|]. intro B. destruct (Hi B) as (_ & P & Pr & _). pose proof (inv_run _ _ t _ _ (reach_inv _ Re) R) as (I1 & _ & _ & I4).
  assert (X : forall m, mp _ s' = m -> m = MPend \/ m = MProc -> exists n s'', (n <= 2)%nat /\ run s' (repeat (Editor _) n) = Some s'' /\ mp _ s'' = MIdle).
  { intros m E [-> | ->]; [exists 1%nat|exists 2%nat]; eexists; (split; [lia|]); cbn [repeat RecModel.run RecModel.step]; unfold RecModel.editor; rewrite E; [rewrite P; split; reflexivity|]. rewrite Pr. cbn [mp set_mp pending]. rewrite P. split; reflexivity. }
  destruct M as [M|[M|[M|[]]]].
  - destruct (X _ (eq_sym M) (or_intror eq_refl)) as (n & s'' & L & H). exists n, s''. split; [lia|exact H].
  - destruct (X _ (eq_sym M) (or_introl eq_refl)) as (n & s'' & L & H). exists n, s''. split; [lia|exact H].
  - exists 3%nat. eexists. split; [lia|]. unfold minv in I4. rewrite <- M in I4. destruct I4 as [Z I4]. assert (Rd : ready _ s' = true).
    { destruct I4 as [H|[H|[H Hn]]]; [exact H| |]; exfalso; unfold RecModel.worker in B; unfold winv in I1; destruct (wp _ s') as [| | |e|e [f r]| | |]; try discriminate; try congruence.
      - destruct (if zombie _ s' then None else queue _ s'); discriminate.
      - rewrite H in B. discriminate.
      - destruct (if zombie _ s' then None else queue _ s'); discriminate.
      - destruct I1. congruence. }
    cbn [repeat RecModel.run RecModel.step]. unfold RecModel.editor at 1. rewrite <- M, Rd. unfold RecModel.editor at 1. cbn [mp set_mp processing]. rewrite Pr. unfold RecModel.editor. cbn [mp set_mp pending]. rewrite P. split; reflexivity.
Qed.

(** shutdown ends: while it waits for the worker, the worker takes at most 12 steps and then has returned. *)
Theorem c50_shutdown s t s' : reachable s -> forallb quiet t = true -> run s t = Some s' -> mp _ s' = MJoin ->
  (workers t <= 12)%nat /\ (worker s' = None -> wp _ s' = WExit /\ exists s'', editor s' = Some s'' /\ mp _ s'' = MIdle).
Proof.
  intros Re Q R M. split; [pose proof (mu_run _ _ _ _ _ Q R); pose proof (mu_bound _ s); lia|]. intro B. pose proof (inv_run _ _ t _ _ (reach_inv _ Re) R) as I'. pose proof I' as (_ & _ & _ & I4). unfold minv in I4. rewrite M in I4. destruct I4 as [Z W].
  destruct (blocked _ search _ I' W B) as (_ & _ & _ & X). apply X in Z. split; [exact Z|]. unfold RecModel.editor. rewrite M, Z. eexists. split; reflexivity.
Qed.

(** Without asynchronous recognition (recognize_command with s_immediate): once wait_while_busy has returned, the word just
    enqueued has its result. *)
Lemma done_step s a s' : quiet a = true -> step s a = Some s' -> queue _ s = None /\ (match wp _ s with WSearch _ | WStore _ _ => False | _ => True end) -> queue _ s' = None /\ (match wp _ s' with WSearch _ | WStore _ _ => False | _ => True end).
Proof.
  intros Q E [Hq Hw]. destruct a as [k0|k0 w0 c0 r|old| | |old| | |w0]; try discriminate Q; cbn in E.
  - destruct (mp _ s); try discriminate. injection E as <-. auto.
  - destruct (mp _ s); try discriminate. injection E as <-. auto.
  - destruct (mp _ s); try discriminate. injection E as <-. destruct (usable _ s); auto.
  - unfold RecModel.editor in E. destruct (mp _ s); try discriminate; [injection E as <-; auto..| |].
    + destruct (ready _ s); [|discriminate]. injection E as <-. auto.
    + destruct (wp _ s) eqn:W; try discriminate. injection E as <-. cbn. rewrite W. auto.
  - unfold RecModel.worker in E. destruct (wp _ s) as [| | |e|e [f r]| | |]; try discriminate; try contradiction.
    + destruct (event _ s); [|discriminate]. injection E as <-. auto.
    + rewrite Hq in E. replace (if zombie _ s then None else None) with (@None entry) in E by (destruct (zombie _ s); reflexivity). injection E as <-. cbn. destruct (zombie _ s); cbn; auto.
    + injection E as <-. auto.
    + injection E as <-. cbn. destruct (zombie _ s); auto.
  - injection E as <-. auto.
Qed.
Theorem c50_immediate s k w c x s1 s2 t s' : reachable s -> usable _ s = true -> step s (Enqueue _ k w c x) = Some s1 -> step s1 (WaitBusy _) = Some s2 -> forallb quiet t = true -> run s2 t = Some s' -> mp _ s' = MIdle ->
  exists f r, find s' k = (1%Z, r, f) /\ later s1 (WaitBusy _ :: t) w c f r.
Proof.
  intros Re U E Ew Q R M. pose proof (reach_inv _ Re) as I0. unfold usable in U. apply negb_true_iff in U. pose proof (newest_start _ search _ _ _ _ _ _ I0 U E) as N0.
  assert (X : forall t s', forallb quiet t = true -> run s2 t = Some s' -> newest world search s1 (WaitBusy _ :: t) k w c s' /\ (mp _ s' = MIdle -> queue _ s' = None /\ (match wp _ s' with WSearch _ | WStore _ _ => False | _ => True end))).
  { clear t s' Q R M. induction t as [|a t IH] using rev_ind; intros s' Q R.
    - injection R as <-. split; [apply (newest_run world search s1 [WaitBusy _] k w c); [reflexivity|exact N0|cbn [RecModel.run]; rewrite Ew; reflexivity]|].
      cbn in Ew. destruct (mp _ s1); try discriminate. injection Ew as <-. destruct N0 as (Z & _). unfold usable. rewrite Z. discriminate.
    - rewrite forallb_app in Q. apply andb_true_iff in Q as [Q Qa]. pose proof Qa as Qa'. cbn [forallb] in Qa. rewrite andb_true_r in Qa. pose proof R as R'. rewrite run_snoc in R. destruct (run s2 t) as [s3|] eqn:R3; [|discriminate]. destruct (IH s3 Q eq_refl) as [N3 D3]. split.
      + apply (newest_run world search s1 (WaitBusy _ :: t ++ [a]) k w c); [cbn [forallb]; rewrite forallb_app, Q, Qa'; reflexivity|exact N0|]. cbn [RecModel.run]. rewrite Ew. exact R'.
      + intro M. destruct (mp _ s3) eqn:M3.
        * exact (done_step _ _ _ Qa R (D3 eq_refl)).
        * exfalso. destruct a; cbn in R; rewrite ?M3 in R; try discriminate; unfold RecModel.editor in R; rewrite ?M3 in R.
          -- injection R as <-. cbn in M. destruct (processing _ s3); discriminate.
          -- destruct (worker s3) as [s4|] eqn:W; [|discriminate]. injection R as <-. clear - M M3 W. unfold RecModel.worker in W. destruct (wp _ s3) as [| | |e|e [f r]| | |]; try discriminate.
             ++ destruct (event _ s3); [|discriminate]. injection W as <-. cbn in M. congruence.
             ++ destruct (if zombie _ s3 then None else queue _ s3); injection W as <-; cbn in M; [congruence|]. destruct (zombie _ s3); cbn in M; congruence.
             ++ injection W as <-. cbn in M. congruence.
             ++ injection W as <-. unfold store in M. destruct (usable _ s3); cbn in M; congruence.
             ++ injection W as <-. cbn in M. congruence.
             ++ injection W as <-. cbn in M. congruence.
          -- injection R as <-. cbn in M. congruence.
        * destruct a; cbn in R; rewrite ?M3 in R; try discriminate; unfold RecModel.editor in R; rewrite ?M3 in R.
          -- injection R as <-. cbn in M |- *. destruct (pending _ s3) eqn:P3; [|discriminate]. destruct N3 as (_ & _ & [[_ H]|[(_ & H & _)|(H1 & H2 & _)]]); [congruence|congruence|]. auto.
          -- exfalso. destruct (worker s3) as [s4|] eqn:W; [|discriminate]. injection R as <-. clear - M M3 W. unfold RecModel.worker in W. destruct (wp _ s3) as [| | |e|e [f r]| | |]; try discriminate.
             ++ destruct (event _ s3); [|discriminate]. injection W as <-. cbn in M. congruence.
             ++ destruct (if zombie _ s3 then None else queue _ s3); injection W as <-; cbn in M; [congruence|]. destruct (zombie _ s3); cbn in M; congruence.
             ++ injection W as <-. cbn in M. congruence.
             ++ injection W as <-. unfold store in M. destruct (usable _ s3); cbn in M; congruence.
             ++ injection W as <-. cbn in M. congruence.
             ++ injection W as <-. cbn in M. congruence.
          -- injection R as <-. cbn in M. congruence.
        * exfalso. destruct a; cbn in R; rewrite ?M3 in R; try discriminate; unfold RecModel.editor in R; rewrite ?M3 in R.
          -- destruct (ready _ s3); [|discriminate]. injection R as <-. cbn in M. discriminate.
          -- destruct (worker s3) as [s4|] eqn:W; [|discriminate]. injection R as <-. clear - M M3 W. unfold RecModel.worker in W. destruct (wp _ s3) as [| | |e|e [f r]| | |]; try discriminate.
             ++ destruct (event _ s3); [|discriminate]. injection W as <-. cbn in M. congruence.
             ++ destruct (if zombie _ s3 then None else queue _ s3); injection W as <-; cbn in M; [congruence|]. destruct (zombie _ s3); cbn in M; congruence.
             ++ injection W as <-. cbn in M. congruence.
             ++ injection W as <-. unfold store in M. destruct (usable _ s3); cbn in M; congruence.
             ++ injection W as <-. cbn in M. congruence.
             ++ injection W as <-. cbn in M. congruence.
          -- injection R as <-. cbn in M. congruence.
        * exfalso. assert (I3 : inv _ s3) by (apply (inv_run world search (WaitBusy _ :: t) s1); [exact (inv_step _ _ _ _ _ I0 E)|cbn [RecModel.run]; rewrite Ew; exact R3]). destruct I3 as (_ & _ & _ & I4). unfold minv in I4. rewrite M3 in I4. destruct N3 as (Z & _). destruct I4. congruence. }
  destruct (X t s' Q R) as [(Z & W & H) D]. destruct (D M) as [Dq Dw]. destruct H as [[H _]|[(_ & _ & [H|(f & r & H & _)])|(_ & _ & f & r & G & L)]]; [congruence|rewrite H in Dw; contradiction|rewrite H in Dw; contradiction|].
  exists f, r. split; [|exact L]. unfold RecModel.find, usable. rewrite Z. cbn [negb]. rewrite G. reflexivity.
Qed.

(** After clear (the end of an input line), if the worker was not searching, every result comes from a request and a search
    made since. *)
Lemma proc_pc t : forall s s', run s t = Some s' -> (match wp _ s with WSearch _ | WStore _ _ => processing _ s = true | _ => True end) -> (match wp _ s' with WSearch _ | WStore _ _ => processing _ s' = true | _ => True end).
Proof.
  induction t as [|a t IH]; intros s s' R H; [injection R as <-; exact H|]. cbn [RecModel.run] in R. destruct (step s a) as [s1|] eqn:E; [|discriminate]. apply (IH _ _ R). clear IH R.
  destruct a as [k0|k0 w0 c0 r|old| | |old| | |w0]; cbn in E.
  - destruct (mp _ s); try discriminate. injection E as <-. auto.
  - destruct (mp _ s); try discriminate. injection E as <-. unfold enqueue. destruct (usable _ s); [|exact H]. unfold store. destruct (usable _ _); cbn; destruct (thread _ s); auto.
  - destruct (mp _ s); try discriminate. injection E as <-. auto.
  - destruct (mp _ s); try discriminate. injection E as <-. auto.
  - destruct (mp _ s); try discriminate. injection E as <-. destruct (usable _ s); auto.
  - destruct (mp _ s); try discriminate. injection E as <-. auto.
  - unfold RecModel.editor in E. destruct (mp _ s); try discriminate; [injection E as <-; auto..| |].
    + destruct (ready _ s); [|discriminate]. injection E as <-. auto.
    + destruct (wp _ s) eqn:W; try discriminate. injection E as <-. cbn. rewrite W. auto.
  - unfold RecModel.worker in E. destruct (wp _ s) as [| | |e|e [f r]| | |]; try discriminate.
    + destruct (event _ s); [|discriminate]. injection E as <-. exact I.
    + destruct (if zombie _ s then None else queue _ s); injection E as <-; cbn; [reflexivity|]. destruct (zombie _ s); exact I.
    + injection E as <-. exact H.
    + injection E as <-. exact I.
    + injection E as <-. exact I.
    + injection E as <-. cbn. destruct (zombie _ s); exact I.
  - injection E as <-. auto.
Qed.
Theorem c50_fresh s old s1 t s' k r f : reachable s -> processing _ s = false -> step s (Clear _ old) = Some s1 -> run s1 t = Some s' -> find s' k = (1%Z, r, f) -> answered s1 t k f r.
Proof.
  intros (w & t0 & R0) P E R F. pose proof (proc_pc t0 _ _ R0 I) as Hp. apply find_hit in F as [_ F]. cbn in E. destruct (mp _ s); try discriminate. injection E as <-.
  assert (S0 : sound world search (clear _ old s) [] (clear _ old s)).
  { split; [|split; [discriminate|]]. - cbn. intros k0 v G O. apply get_cleared in G. congruence. - cbn. destruct (wp _ s) as [| | |e|e [f0 r0]| | |]; try exact I; congruence. }
  exact (proj1 (sound_run world search _ _ _ S0 R) k _ F eq_refl).
Qed.

(** A new result is announced: if a word gets a result (or another one), check_recognizer_refresh says so next time. *)
Definition plain (a : act) : bool := match a with Need _ | Clear _ _ | Shutdown _ _ => false | _ => true end.
Lemma told_step s a s' : plain a = true -> step s a = Some s' -> zombie _ s' = zombie _ s /\ (avail _ s = true -> avail _ s' = true) /\ (cache _ s' = cache _ s \/ avail _ s' = true).
Proof.
  intros Q E. destruct a as [k0|k0 w0 c0 r|old| | |old| | |w0]; try discriminate Q; cbn in E.
  - destruct (mp _ s); try discriminate. injection E as <-. auto.
  - destruct (mp _ s); try discriminate. injection E as <-. unfold enqueue. destruct (usable _ s); [|auto]. unfold store. destruct (usable _ _); cbn; auto.
  - destruct (mp _ s); try discriminate. injection E as <-. destruct (usable _ s); auto.
  - unfold RecModel.editor in E. destruct (mp _ s); try discriminate; [injection E as <-; auto..| |].
    + destruct (ready _ s); [|discriminate]. injection E as <-. auto.
    + destruct (wp _ s); try discriminate. injection E as <-. auto.
  - unfold RecModel.worker in E. destruct (wp _ s) as [| | |e|e [f r]| | |]; try discriminate.
    + destruct (event _ s); [|discriminate]. injection E as <-. auto.
    + destruct (if zombie _ s then None else queue _ s); injection E as <-; cbn; [auto|]. destruct (zombie _ s) eqn:Z; cbn; auto.
    + injection E as <-. auto.
    + injection E as <-. unfold store. destruct (usable _ s); cbn; auto.
    + injection E as <-. cbn. auto.
    + injection E as <-. auto.
  - injection E as <-. auto.
Qed.
Theorem c50_told s t s' k r f : forallb plain t = true -> run s t = Some s' -> find s' k = (1%Z, r, f) -> find s k <> (1%Z, r, f) -> fst (need_refresh _ s') = true.
Proof.
  intros Q R F Fn. assert (X : zombie _ s' = zombie _ s /\ (cache _ s' = cache _ s \/ avail _ s' = true)).
  { clear F Fn. revert s s' Q R. induction t as [|a t IH]; intros s s' Q R; [injection R as <-; auto|]. cbn [forallb] in Q. apply andb_true_iff in Q as [Qa Q]. cbn [RecModel.run] in R. destruct (step s a) as [s1|] eqn:E; [|discriminate].
    destruct (told_step _ _ _ Qa E) as (Z & A & C). assert (M : avail _ s1 = true -> avail _ s' = true).
    { clear - Q R. revert s1 s' Q R. induction t as [|b t IH]; intros s1 s' Q R Ha; [injection R as <-; exact Ha|]. cbn [forallb] in Q. apply andb_true_iff in Q as [Qb Q]. cbn [RecModel.run] in R. destruct (step s1 b) as [s2|] eqn:E; [|discriminate]. destruct (told_step _ _ _ Qb E) as (_ & A & _). exact (IH _ _ Q R (A Ha)). }
    destruct (IH _ _ Q R) as [Z' C']. split; [congruence|]. destruct C as [C|C]; [|right; exact (M C)]. destruct C' as [C'|C']; [left; congruence|right; exact C']. }
  destruct X as [Z [C|C]]; [|exact C]. exfalso. apply Fn. apply find_hit in F as [U G]. rewrite C in G. unfold RecModel.find, usable in *. rewrite <- Z, U, G. reflexivity.
Qed.
End C50.
Print Assumptions c50_sound.
Print Assumptions c50_newest.
Print Assumptions c50_idle.
Print Assumptions c50_wait.
Print Assumptions c50_shutdown.
Print Assumptions c50_immediate.
Print Assumptions c50_fresh.
Print Assumptions c50_told.

(** ** Executions.  The world is whether a file exists. *)
Definition find_file (w : bool) (word cwd : str) : str * N := if w then (cwd ++ [92] ++ word, 1) else ([], 0).
Notation W := (Worker bool). Notation M := (Editor bool).
Definition ask (k : N) := Enqueue bool [k] [k; 46] [99] 0.
Notation go := (run bool find_file (init _ true)).
(** two words, the second while the first is searched for; the worker waits again after 12 steps *)
Example c50_ex_newest : exists s s', go [ask 97; W; W] = Some s /\ run bool find_file s (ask 98 :: repeat W 12) = Some s' /\ worker bool find_file s' = None /\ find bool s' [98] = (1%Z, 1, [99; 92; 98; 46]) /\ find bool s' [97] = (1%Z, 1, [99; 92; 97; 46]).
Proof. eexists _, _. split; [vm_compute; reflexivity|]. split; [vm_compute; reflexivity|]. vm_compute. auto. Qed.
Example c50_ex_wait : exists s s', go [ask 97; W; W; WaitBusy _; M; M] = Some s /\ mp _ s = MProc /\ run bool find_file s (repeat W 5 ++ [M; M]) = Some s' /\ mp _ s' = MIdle /\ fst (fst (find bool s' [97])) = 1%Z.
Proof. eexists _, _. split; [vm_compute; reflexivity|]. split; [reflexivity|]. split; [vm_compute; reflexivity|]. vm_compute. auto. Qed.
Example c50_ex_shutdown : exists s s', go [ask 97; W; W; Shutdown _ (fun _ => true)] = Some s /\ mp _ s = MJoin /\ run bool find_file s (repeat W 5) = Some s' /\ mp _ s' = MJoin /\ worker bool find_file s' = None /\ wp _ s' = WExit.
Proof. eexists _, _. split; [vm_compute; reflexivity|]. split; [reflexivity|]. split; [vm_compute; reflexivity|]. vm_compute. auto. Qed.
Example c50_ex_fresh : exists s s' s'', go (ask 97 :: repeat W 7) = Some s /\ processing _ s = false /\ run bool find_file s [World _ false; Clear _ (fun _ => false)] = Some s' /\ fst (fst (find bool s' [97])) = 0%Z /\ run bool find_file s' (ask 97 :: repeat W 5) = Some s'' /\ find bool s'' [97] = (1%Z, 0, []).
Proof. eexists _, _, _. split; [vm_compute; reflexivity|]. split; [reflexivity|]. split; [vm_compute; reflexivity|]. split; [reflexivity|]. split; [vm_compute; reflexivity|]. reflexivity. Qed.

(** ** What does not hold *)
(** A search that was running when the line ended: its result counts as fresh though the file is gone. *)
Definition c50_fresh_any : Prop := forall world search s old s1 t s' k r f, reachable world search s -> step world search s (Clear _ old) = Some s1 -> run world search s1 t = Some s' -> find world s' k = (1%Z, r, f) -> answered world search s1 t k f r.
Theorem c50_fresh_any_refuted : ~ c50_fresh_any.
Proof.
  intro H. destruct (go [ask 97; W; W; W; World _ false]) as [s|] eqn:E; [|vm_compute in E; discriminate]. destruct (step bool find_file s (Clear _ (fun _ => false))) as [s1|] eqn:E1; [|vm_compute in E; injection E as <-; vm_compute in E1; discriminate].
  destruct (run bool find_file s1 [W]) as [s'|] eqn:E2; [|vm_compute in E; injection E as <-; vm_compute in E1; injection E1 as <-; vm_compute in E2; discriminate].
  assert (F : find bool s' [97] = (1%Z, 1, [99; 92; 97; 46])) by (vm_compute in E; injection E as <-; vm_compute in E1; injection E1 as <-; vm_compute in E2; injection E2 as <-; reflexivity).
  destruct (H bool find_file s (fun _ => false) s1 [W] s' [97] 1 [99; 92; 97; 46] (ex_intro _ true (ex_intro _ _ E)) E1 E2 F) as (t1 & w & c & x & t2 & t3 & sm & Et & _). destruct t1 as [|a [|b t1]]; discriminate.
Qed.
Print Assumptions c50_fresh_any_refuted.
(** A word that was pending and is dropped for a newer one: the editor need not be told, and keeps showing it as not yet
    recognized. *)
Definition c50_told_dropped : Prop := forall world search s t s' k, reachable world search s -> forallb (plain world) t = true -> run world search s t = Some s' ->
  fst (fst (find world s k)) = (-1)%Z -> fst (fst (find world s' k)) = 0%Z -> fst (need_refresh world s') = true.
Theorem c50_told_dropped_refuted : ~ c50_told_dropped.
Proof.
  intro H. destruct (go ([ask 97; W; W; ask 98; ask 99] ++ repeat W 7 ++ [Need _])) as [s|] eqn:E; [|vm_compute in E; discriminate].
  destruct (run bool find_file s [W]) as [s'|] eqn:E2; [|vm_compute in E; injection E as <-; vm_compute in E2; discriminate].
  specialize (H bool find_file s [W] s' [98] (ex_intro _ true (ex_intro _ _ E)) eq_refl E2). vm_compute in E. injection E as <-. vm_compute in E2. injection E2 as <-. specialize (H eq_refl eq_refl). discriminate.
Qed.
Print Assumptions c50_told_dropped_refuted.
