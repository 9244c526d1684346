(** Invariants of the recognizer's two threads. *)
From Verif Require Import Base RecModel RecSpec.
Open Scope N_scope.

Lemma str_eq_refl a : str_eq a a = true.
Proof. unfold str_eq. destruct (list_eq_dec N.eq_dec a a); congruence. Qed.
Lemma str_eq_spec a b : str_eq a b = true <-> a = b.
Proof. unfold str_eq. destruct (list_eq_dec N.eq_dec a b); split; congruence. Qed.
Lemma get_filter m k k' : get (filter (fun p => negb (str_eq (fst p) k)) m) k' = if str_eq k k' then None else get m k'.
Proof.
  induction m as [|[a v] m IH]; cbn [filter get fst]; [destruct (str_eq k k'); reflexivity|]. destruct (str_eq a k) eqn:E; cbn [negb get].
  - apply str_eq_spec in E. subst a. rewrite IH. destruct (str_eq k k'); reflexivity.
  - rewrite IH. destruct (str_eq a k') eqn:E2; [|reflexivity]. apply str_eq_spec in E2. subst k'. destruct (str_eq k a) eqn:E3; [|reflexivity]. apply str_eq_spec in E3. subst k. rewrite str_eq_refl in E. discriminate.
Qed.
Lemma get_put m k v k' : get (put m k v) k' = if str_eq k k' then Some v else get m k'.
Proof. unfold put. cbn [get]. rewrite get_filter. destruct (str_eq k k'); reflexivity. Qed.
Lemma put_ne m k v : put m k v <> [].
Proof. discriminate. Qed.
Lemma get_cleared old m k v : get (map (fun p => (fst p, mkC (c_file (snd p)) (c_rec (snd p)) true)) (filter (fun p => negb (old (fst p))) m)) k = Some v -> c_old v = true.
Proof.
  induction m as [|[a w] m IH]; [discriminate|]. cbn [filter fst]. destruct (negb (old a)); [|exact IH]. cbn [map fst snd get]. destruct (str_eq a k); [intro H; injection H as <-; reflexivity|exact IH].
Qed.

Section Rec.
Variable world : Type.
Variable search : world -> str -> str -> str * N.
Notation st := (st world). Notation act := (act world).
Notation step := (step world search). Notation run := (run world search). Notation worker := (worker world search). Notation editor := (editor world).
Notation find := (find world). Notation quiet := (quiet world). Notation is_worker := (is_worker world). Notation workers := (workers world). Notation asked := (asked world). Notation answered := (answered world search). Notation later := (later world search).

Lemma run_app s t1 t2 : run s (t1 ++ t2) = match run s t1 with None => None | Some s' => run s' t2 end.
Proof. revert s. induction t1 as [|a t1 IH]; intro s; [reflexivity|]. cbn [app RecModel.run]. destruct (step s a) as [s'|]; [apply IH|reflexivity]. Qed.
Lemma run_snoc s t a : run s (t ++ [a]) = match run s t with None => None | Some s' => step s' a end.
Proof. rewrite run_app. destruct (run s t) as [s'|]; [|reflexivity]. cbn [RecModel.run]. destruct (step s' a); reflexivity. Qed.

Definition busy_pc (p : wpc) : bool := match p with WTop | WSearch _ | WStore _ _ | WNotify => true | _ => false end.
Definition winv (s : st) : Prop :=
  match wp _ s with
  | WNone => thread _ s = false /\ queue _ s = None /\ pending _ s = [] /\ processing _ s = false
  | WWait => processing _ s = false /\ (event _ s = true \/ queue _ s = None /\ pending _ s = [] /\ zombie _ s = false)
  | WCheck => processing _ s = false /\ (event _ s = true \/ queue _ s = None /\ pending _ s = [])
  | WExit => processing _ s = false /\ zombie _ s = true
  | _ => True
  end.
Definition minv (s : st) : Prop :=
  match mp _ s with
  | MIdle => True
  | MJoin => zombie _ s = true /\ wp _ s <> WNone
  | MProc | MPend => zombie _ s = false
  | MReady => zombie _ s = false /\ (ready _ s = true \/ busy_pc (wp _ s) = true \/ event _ s = true /\ wp _ s <> WNone)
  end.
Definition inv (s : st) : Prop :=
  winv s /\ (wp _ s <> WNone -> zombie _ s = false -> thread _ s = true) /\ (zombie _ s = true -> queue _ s = None /\ pending _ s = [] /\ thread _ s = false) /\ minv s.

Lemma inv_init w : inv (init _ w).
Proof. unfold inv, winv, minv, init. cbn. repeat split; congruence. Qed.
Ltac unf := unfold RecModel.step, RecModel.worker, RecModel.editor, enqueue, shutdown, clear, need_refresh, store, notify_ready, set_ready, set_wp, set_mp, set_result_available, usable in *;
  cbn [cache pending queue thread event processing avail zombie ready wp mp now snd fst negb] in *.
Lemma inv_step s a s' : inv s -> step s a = Some s' -> inv s'.
Proof.
  unfold inv, winv, minv. destruct s as [ca pe qu th ev pr av zo re w m no]. intros (I1 & I2 & I3 & I4) E.
  destruct a as [k|k w0 c r|old| | |old| | |w0]; unf.
  - destruct m; try discriminate. injection E as <-. tauto.
  - destruct m; try discriminate. destruct zo; injection E as <-; cbn; [tauto|]. split; [|split; [|split; [|exact I]]]; [| |discriminate].
    + destruct th; [destruct w; try tauto; destruct I1; discriminate|]. split; [|left; reflexivity]. destruct w; try (discriminate (I2 ltac:(discriminate) eq_refl)). tauto.
    + reflexivity.
  - destruct m; try discriminate. injection E as <-. cbn. split; [destruct w; tauto|]. tauto.
  - destruct m; try discriminate. injection E as <-. cbn. tauto.
  - destruct m; try discriminate. destruct zo; injection E as <-; cbn; tauto.
  - destruct m; try discriminate. injection E as <-. cbn. split.
    + destruct w; try tauto. destruct th; [tauto|]. destruct zo; [|discriminate (I2 ltac:(discriminate) eq_refl)]. tauto.
    + split; [discriminate|]. split; [tauto|]. destruct th; [|exact I]. split; [reflexivity|]. intros ->. destruct I1 as [I1 _]. discriminate.
  - destruct m; try discriminate.
    + injection E as <-. cbn. split; [exact I1|]. split; [exact I2|]. split; [exact I3|]. destruct pr; [|exact I4]. split; [exact I4|]. destruct w; cbn; tauto || (destruct I1 as [I1 _]; discriminate) || (destruct I1 as (_ & _ & _ & I1); discriminate).
    + injection E as <-. cbn. split; [exact I1|]. split; [exact I2|]. split; [exact I3|]. destruct pe as [|x pe]; [exact I|]. split; [exact I4|]. destruct w; cbn.
      * destruct I1 as (_ & _ & I1 & _). discriminate.
      * destruct I1 as [_ [I1|(_ & I1 & _)]]; [|discriminate]. right. right. split; [exact I1|discriminate].
      * tauto.
      * tauto.
      * tauto.
      * tauto.
      * destruct I1 as [_ [I1|(_ & I1)]]; [|discriminate]. right. right. split; [exact I1|discriminate].
      * destruct I1 as [_ I1]. congruence.
    + destruct re; [|discriminate]. injection E as <-. cbn. tauto.
    + destruct w; try discriminate. injection E as <-. cbn. tauto.
  - destruct w as [| | |e|e [f r]| | |]; try discriminate; cbn [wp] in *.
    + destruct ev; [|discriminate]. injection E as <-. cbn. split; [exact I|]. split; [intros _ Z; exact (I2 ltac:(discriminate) Z)|]. split; [exact I3|]. destruct m; try exact I4; [tauto|]. split; [tauto|discriminate].
    + destruct zo; [|destruct qu as [e|]].
      * injection E as <-. cbn. specialize (I3 eq_refl) as (-> & -> & ->). split; [split; [reflexivity|right; split; reflexivity]|]. split; [discriminate|]. split; [tauto|]. destruct m; try exact I4; [destruct I4; discriminate|]. split; [reflexivity|discriminate].
      * injection E as <-. cbn. split; [exact I|]. split; [intros _ _; exact (I2 ltac:(discriminate) eq_refl)|]. split; [discriminate|]. destruct m; try exact I4; [tauto|]. destruct I4; discriminate.
      * injection E as <-. cbn. split; [split; [reflexivity|right; split; reflexivity]|]. split; [intros _ _; exact (I2 ltac:(discriminate) eq_refl)|]. split; [discriminate|]. destruct m; try exact I4; [tauto|]. destruct I4; discriminate.
    + injection E as <-. cbn. split; [exact I|]. split; [intros _ Z; exact (I2 ltac:(discriminate) Z)|]. split; [exact I3|]. destruct m; try exact I4; [tauto|]. split; [tauto|discriminate].
    + destruct zo; injection E as <-; cbn.
      * split; [exact I|]. split; [discriminate|]. split; [exact I3|]. destruct m; try exact I4; [destruct I4; discriminate|]. split; [tauto|discriminate].
      * split; [exact I|]. split; [intros _ Z; exact (I2 ltac:(discriminate) Z)|]. split; [discriminate|]. destruct m; try exact I4; [tauto|]. destruct I4; discriminate.
    + injection E as <-. cbn. split; [exact I|]. split; [intros _ Z; exact (I2 ltac:(discriminate) Z)|]. split; [exact I3|]. destruct m; try exact I4; [tauto|]. split; [tauto|discriminate].
    + destruct zo; injection E as <-; cbn.
      * split; [tauto|]. split; [discriminate|]. split; [exact I3|]. destruct m; try exact I4; [destruct I4; discriminate|]. split; [tauto|discriminate].
      * split; [tauto|]. split; [intros _ _; exact (I2 ltac:(discriminate) eq_refl)|]. split; [discriminate|]. destruct m; try exact I4; [|destruct I4; discriminate]. split; [reflexivity|]. destruct I4 as [_ [H|[H|[H _]]]]; [tauto|discriminate|]. right. right. split; [exact H|discriminate].
  - injection E as <-. cbn. tauto.
Qed.
Lemma inv_run t : forall s s', inv s -> run s t = Some s' -> inv s'.
Proof. induction t as [|a t IH]; intros s s' I E; [injection E as <-; exact I|]. cbn [RecModel.run] in E. destruct (step s a) as [s1|] eqn:E1; [|discriminate]. exact (IH _ _ (inv_step _ _ _ I E1) E). Qed.

(** ** Blocked states *)
Lemma blocked s : inv s -> wp _ s <> WNone -> worker s = None -> processing _ s = false /\ pending _ s = [] /\ queue _ s = None /\ (zombie _ s = true <-> wp _ s = WExit).
Proof.
  intros (I1 & I2 & I3 & I4) Hn E. unfold winv, RecModel.worker in *. destruct (wp _ s) as [| | |e|e [f r]| | |] eqn:W; try discriminate; [congruence| | |].
  - destruct (event _ s) eqn:Ev; [discriminate|]. destruct I1 as [-> [I1|(-> & -> & ->)]]; [discriminate|]. repeat split; discriminate.
  - destruct (if zombie _ s then None else queue _ s); discriminate.
  - destruct I1 as [-> Z]. specialize (I3 Z) as (-> & -> & _). repeat split; intros _; assumption.
Qed.

(** ** Bound on the steps of the worker *)
Definition pcw (p : wpc) : nat := match p with WNone | WWait | WExit => 0 | WCheck => 1 | WTop => 2 | WNotify => 3 | WStore _ _ => 4 | WSearch _ => 5 end.
Definition mu (s : st) : nat := pcw (wp _ s) + (match queue _ s with None => 0 | _ => 4 end) + (if event _ s then 3 else 0).
Lemma mu_step s a s' : quiet a = true -> step s a = Some s' -> (mu s' + (if is_worker a then 1 else 0) <= mu s)%nat.
Proof.
  unfold mu. destruct s as [ca pe qu th ev pr av zo re w m no]. intros Q E.
  destruct a as [k|k w0 c r|old| | |old| | |w0]; try discriminate Q; unf; cbn [RecSpec.is_worker].
  - destruct m; try discriminate. injection E as <-. cbn. lia.
  - destruct m; try discriminate. injection E as <-. cbn. lia.
  - destruct m; try discriminate. destruct zo; injection E as <-; cbn; lia.
  - destruct m; try discriminate; [injection E as <-; cbn; lia|injection E as <-; cbn; lia| |].
    + destruct re; [|discriminate]. injection E as <-. cbn. lia.
    + destruct w; try discriminate. injection E as <-. cbn. lia.
  - destruct w as [| | |e|e [f r]| | |]; try discriminate; cbn [wp] in *.
    + destruct ev; [|discriminate]. injection E as <-. cbn. lia.
    + destruct zo; [|destruct qu as [e|]]; injection E as <-; cbn; destruct ev; try destruct qu; cbn; lia.
    + injection E as <-. cbn. lia.
    + destruct zo; injection E as <-; cbn; lia.
    + injection E as <-. cbn. lia.
    + destruct zo; injection E as <-; cbn; lia.
  - injection E as <-. cbn. lia.
Qed.
Lemma mu_run t : forall s s', forallb quiet t = true -> run s t = Some s' -> (mu s' + workers t <= mu s)%nat.
Proof.
  induction t as [|a t IH]; intros s s' Q E; [injection E as <-; cbn; lia|]. cbn [forallb] in Q. apply andb_true_iff in Q as [Qa Q]. cbn [RecModel.run] in E. destruct (step s a) as [s1|] eqn:E1; [|discriminate].
  pose proof (mu_step _ _ _ Qa E1). specialize (IH _ _ Q E). unfold RecSpec.workers in *. cbn [filter]. destruct (is_worker a); cbn [length]; lia.
Qed.
Lemma mu_bound s : (mu s <= 12)%nat.
Proof. unfold mu. destruct (wp _ s); cbn [pcw]; destruct (queue _ s), (event _ s); lia. Qed.

(** the worker stays started *)
Lemma started s a s' : wp _ s <> WNone -> step s a = Some s' -> wp _ s' <> WNone.
Proof.
  destruct s as [ca pe qu th ev pr av zo re w m no]. intros Q E.
  destruct a as [k|k w0 c r|old| | |old| | |w0]; unf.
  - destruct m; try discriminate. injection E as <-. exact Q.
  - destruct m; try discriminate. destruct zo; injection E as <-; cbn; [exact Q|]. destruct th; [exact Q|discriminate].
  - destruct m; try discriminate. injection E as <-. exact Q.
  - destruct m; try discriminate. injection E as <-. exact Q.
  - destruct m; try discriminate. destruct zo; injection E as <-; exact Q.
  - destruct m; try discriminate. injection E as <-. exact Q.
  - destruct m; try discriminate; [injection E as <-; exact Q|injection E as <-; exact Q| |].
    + destruct re; [|discriminate]. injection E as <-. exact Q.
    + destruct w; try discriminate. injection E as <-. exact Q.
  - destruct w as [| | |e|e [f r]| | |]; try discriminate; cbn [wp] in *.
    + destruct ev; [|discriminate]. injection E as <-. discriminate.
    + destruct zo; [|destruct qu as [e|]]; injection E as <-; discriminate.
    + injection E as <-. discriminate.
    + destruct zo; injection E as <-; discriminate.
    + injection E as <-. discriminate.
    + destruct zo; injection E as <-; discriminate.
  - injection E as <-. exact Q.
Qed.
Lemma started_run t : forall s s', wp _ s <> WNone -> run s t = Some s' -> wp _ s' <> WNone.
Proof. induction t as [|a t IH]; intros s s' I E; [injection E as <-; exact I|]. cbn [RecModel.run] in E. destruct (step s a) as [s1|] eqn:E1; [|discriminate]. exact (IH _ _ (started _ _ _ I E1) E). Qed.

(** ** Results *)
Lemma asked_snoc t k w c a : asked t k w c -> asked (t ++ [a]) k w c.
Proof. intros (t1 & x & t2 & ->). exists t1, x, (t2 ++ [a]). rewrite <- app_assoc. reflexivity. Qed.
Lemma answered_snoc s0 t k f r a : answered s0 t k f r -> answered s0 (t ++ [a]) k f r.
Proof. intros (t1 & w & c & x & t2 & t3 & sm & -> & E & S). exists t1, w, c, x, t2, (t3 ++ [a]), sm. split; [|split; assumption]. rewrite <- !app_assoc. cbn [app]. rewrite <- app_assoc. reflexivity. Qed.

Definition sound (s0 : st) (t : list act) (s : st) : Prop :=
  (forall k v, get (cache _ s) k = Some v -> c_old v = false -> answered s0 t k (c_file v) (c_rec v)) /\
  (forall e, queue _ s = Some e -> asked t (e_key e) (e_word e) (e_cwd e)) /\
  match wp _ s with WSearch e => asked t (e_key e) (e_word e) (e_cwd e) | WStore e (f, r) => answered s0 t (e_key e) f r | _ => True end.
Lemma sound_snoc s0 t s a : sound s0 t s -> sound s0 (t ++ [a]) s.
Proof.
  intros (A & B & C). split; [intros; apply answered_snoc; eauto|]. split; [intros; apply asked_snoc; eauto|].
  destruct (wp _ s) as [| | |e|e [f r]| | |]; try exact I; [apply asked_snoc; exact C|apply answered_snoc; exact C].
Qed.
Lemma sound_same s0 t s s' : cache _ s' = cache _ s -> queue _ s' = queue _ s -> wp _ s' = wp _ s -> sound s0 t s -> sound s0 t s'.
Proof. intros E1 E2 E3. unfold sound. rewrite E1, E2, E3. auto. Qed.
Lemma sound_step s0 t s a s' : run s0 t = Some s -> sound s0 t s -> step s a = Some s' -> sound s0 (t ++ [a]) s'.
Proof.
  intros R S E. pose proof (sound_snoc s0 t s a S) as S'.
  destruct a as [k|k w0 c r|old| | |old| | |w0].
  - cbn in E. destruct (mp _ s); try discriminate. injection E as <-. exact S'.
  - cbn in E. destruct (mp _ s); try discriminate. injection E as <-. unfold enqueue. destruct (usable _ s) eqn:U; [|exact S']. unfold store. unfold usable in *. cbn [zombie]. rewrite U. destruct S' as (A & B & C). split; [exact A|]. split.
    + cbn. intros e He. injection He as <-. exists t, r, []. reflexivity.
    + cbn. destruct (thread _ s); [exact C|exact I].
  - cbn in E. destruct (mp _ s); try discriminate. injection E as <-. destruct S' as (A & B & C). split; [|split; [discriminate|exact C]]. cbn. intros k v G O. apply get_cleared in G. congruence.
  - cbn in E. destruct (mp _ s); try discriminate. injection E as <-. exact (sound_same _ _ s _ eq_refl eq_refl eq_refl S').
  - cbn in E. destruct (mp _ s); try discriminate. injection E as <-. destruct (usable _ s); [exact (sound_same _ _ s _ eq_refl eq_refl eq_refl S')|exact S'].
  - cbn in E. destruct (mp _ s); try discriminate. injection E as <-. destruct S' as (A & B & C). split; [|split; [discriminate|exact C]]. cbn. intros k v G O. apply get_cleared in G. congruence.
  - cbn in E. unfold RecModel.editor in E. destruct (mp _ s); try discriminate; [injection E as <-; exact (sound_same _ _ s _ eq_refl eq_refl eq_refl S')..| |].
    + destruct (ready _ s); [|discriminate]. injection E as <-. exact (sound_same _ _ s _ eq_refl eq_refl eq_refl S').
    + destruct (wp _ s); try discriminate. injection E as <-. exact (sound_same _ _ s _ eq_refl eq_refl eq_refl S').
  - cbn in E. unfold RecModel.worker in E. destruct S' as (A & B & C). destruct (wp _ s) as [| | |e|e [f r]| | |] eqn:W; try discriminate.
    + destruct (event _ s); [|discriminate]. injection E as <-. split; [exact A|]. split; [exact B|exact I].
    + destruct (zombie _ s) eqn:Z; [|destruct (queue _ s) as [e|] eqn:Qe].
      * cbn in E. injection E as <-. split; [exact A|]. split; [exact B|exact I].
      * injection E as <-. split; [exact A|]. split; [discriminate|]. exact (B e eq_refl).
      * cbn in E. injection E as <-. split; [exact A|]. split; [discriminate|exact I].
    + injection E as <-. split; [exact A|]. split; [exact B|]. cbn. destruct (search (now _ s) (e_word e) (e_cwd e)) as [f r] eqn:Es. destruct S as (_ & _ & S). rewrite W in S. destruct S as (t1 & x & t2 & ->).
      exists t1, (e_word e), (e_cwd e), x, t2, [Worker _], s. rewrite <- app_assoc. split; [reflexivity|]. split; assumption.
    + injection E as <-. unfold store. destruct (usable _ s); [|split; [exact A|split; [exact B|exact I]]]. split; [|split; [exact B|exact I]]. intros k v G O. change (get (put (cache _ s) (e_key e) (mkC f r false)) k = Some v) in G. rewrite get_put in G. destruct (str_eq (e_key e) k) eqn:Ek; [|exact (A k v G O)].
      apply str_eq_spec in Ek. subst k. injection G as <-. exact C.
    + injection E as <-. split; [exact A|]. split; [exact B|exact I].
    + injection E as <-. split; [exact A|]. split; [exact B|]. cbn. destruct (zombie _ s); exact I.
  - cbn in E. injection E as <-. exact (sound_same _ _ s _ eq_refl eq_refl eq_refl S').
Qed.
Lemma sound_run s0 t s : sound s0 [] s0 -> run s0 t = Some s -> sound s0 t s.
Proof.
  intro S0. revert s. induction t as [|a t IH] using rev_ind; intros s R; [injection R as <-; exact S0|].
  rewrite run_snoc in R. destruct (run s0 t) as [s1|] eqn:R1; [|discriminate]. exact (sound_step _ _ _ _ _ R1 (IH _ eq_refl) R).
Qed.

(** ** The newest request *)
Lemma later_snoc s1 t w c f r a : later s1 t w c f r -> later s1 (t ++ [a]) w c f r.
Proof. intros (t1 & t2 & sm & -> & H). exists t1, (t2 ++ [a]), sm. split; [rewrite app_assoc; reflexivity|exact H]. Qed.
Definition newest (s1 : st) (t : list act) (k w c : str) (s : st) : Prop :=
  zombie _ s = false /\ wp _ s <> WNone /\
  (queue _ s = Some (mkE k w c) /\ pending _ s <> [] \/
   queue _ s = None /\ pending _ s <> [] /\ (wp _ s = WSearch (mkE k w c) \/ exists f r, wp _ s = WStore (mkE k w c) (f, r) /\ later s1 t w c f r) \/
   queue _ s = None /\ (match wp _ s with WSearch _ | WStore _ _ => False | _ => True end) /\ exists f r, get (cache _ s) k = Some (mkC f r false) /\ later s1 t w c f r).
Lemma newest_snoc s1 t k w c s a : newest s1 t k w c s -> newest s1 (t ++ [a]) k w c s.
Proof.
  intros (Z & W & H). split; [first [exact Z|reflexivity]|]. split; [exact W|]. destruct H as [H|[(Q & P & [H|(f & r & H & L)])|(Q & P & f & r & H & L)]]; [tauto|tauto| |].
  - right. left. split; [exact Q|]. split; [exact P|]. right. exists f, r. split; [exact H|apply later_snoc; exact L].
  - right. right. split; [exact Q|]. split; [exact P|]. exists f, r. split; [exact H|apply later_snoc; exact L].
Qed.
Lemma newest_same s1 t k w c s s' : cache _ s' = cache _ s -> pending _ s' = pending _ s -> queue _ s' = queue _ s -> wp _ s' = wp _ s -> zombie _ s' = zombie _ s -> newest s1 t k w c s -> newest s1 t k w c s'.
Proof. intros E1 E2 E3 E4 E5. unfold newest. rewrite E1, E2, E3, E4, E5. auto. Qed.
Lemma newest_step s1 t k w c s a s' : quiet a = true -> run s1 t = Some s -> newest s1 t k w c s -> step s a = Some s' -> newest s1 (t ++ [a]) k w c s'.
Proof.
  intros Q R S E. pose proof (newest_snoc s1 t k w c s a S) as S'.
  destruct a as [k0|k0 w0 c0 r|old| | |old| | |w0]; try discriminate Q.
  - cbn in E. destruct (mp _ s); try discriminate. injection E as <-. exact S'.
  - cbn in E. destruct (mp _ s); try discriminate. injection E as <-. exact (newest_same _ _ _ _ _ s _ eq_refl eq_refl eq_refl eq_refl eq_refl S').
  - cbn in E. destruct (mp _ s); try discriminate. injection E as <-. destruct (usable _ s); [exact (newest_same _ _ _ _ _ s _ eq_refl eq_refl eq_refl eq_refl eq_refl S')|exact S'].
  - cbn in E. unfold RecModel.editor in E. destruct (mp _ s); try discriminate; [injection E as <-; exact (newest_same _ _ _ _ _ s _ eq_refl eq_refl eq_refl eq_refl eq_refl S')..| |].
    + destruct (ready _ s); [|discriminate]. injection E as <-. exact (newest_same _ _ _ _ _ s _ eq_refl eq_refl eq_refl eq_refl eq_refl S').
    + destruct (wp _ s); try discriminate. injection E as <-. exact (newest_same _ _ _ _ _ s _ eq_refl eq_refl eq_refl eq_refl eq_refl S').
  - cbn in E. unfold RecModel.worker in E. destruct S' as (Z & W & H). unfold newest. destruct (wp _ s) as [| | |e|e [f r]| | |] eqn:Wp; try discriminate.
    + destruct (event _ s); [|discriminate]. injection E as <-. cbn. split; [first [exact Z|reflexivity]|]. split; [discriminate|]. destruct H as [H|[(_ & _ & [H|(f & r & H & _)])|(Hq & _ & H)]]; [left; exact H|discriminate|discriminate|]. right. right. repeat split; assumption.
    + rewrite Z in E. destruct (queue _ s) as [e|] eqn:Qe.
      * injection E as <-. cbn. split; [first [exact Z|reflexivity]|]. split; [discriminate|]. destruct H as [[H P]|[(H & _)|(H & _)]]; [|discriminate|discriminate]. injection H as ->. right. left. split; [reflexivity|]. split; [exact P|]. left. reflexivity.
      * cbn in E. try rewrite Z in E. injection E as <-. cbn. split; [first [exact Z|reflexivity]|]. split; [discriminate|]. destruct H as [[H _]|[(_ & _ & [H|(f & r & H & _)])|(_ & _ & H)]]; [discriminate|discriminate|discriminate|]. right. right. split; [reflexivity|]. split; [exact I|exact H].
    + injection E as <-. cbn. split; [first [exact Z|reflexivity]|]. split; [discriminate|]. destruct H as [H|[(Hq & P & [H|(f & r & H & _)])|(_ & H & _)]]; [left; exact H| |discriminate|contradiction].
      injection H as ->. right. left. split; [exact Hq|]. split; [exact P|]. right. cbn. destruct (search (now _ s) w c) as [f r] eqn:Es. exists f, r. split; [reflexivity|]. exists t, [Worker _], s. repeat split; assumption.
    + injection E as <-. unfold store, usable. rewrite Z. cbn. split; [first [exact Z|reflexivity]|]. split; [discriminate|]. destruct H as [H|[(Hq & P & [H|(f0 & r0 & H & L)])|(_ & H & _)]]; [left; exact H|discriminate| |contradiction].
      injection H as -> <- <-. right. right. split; [exact Hq|]. split; [exact I|]. cbn. rewrite str_eq_refl. exists f, r. split; [reflexivity|exact L].
    + injection E as <-. cbn. split; [first [exact Z|reflexivity]|]. split; [discriminate|]. destruct H as [H|[(_ & _ & [H|(f & r & H & _)])|(Hq & _ & H)]]; [left; exact H|discriminate|discriminate|]. right. right. repeat split; assumption.
    + injection E as <-. rewrite Z. cbn. split; [first [exact Z|reflexivity]|]. split; [discriminate|]. destruct H as [H|[(_ & _ & [H|(f & r & H & _)])|(Hq & _ & H)]]; [left; exact H|discriminate|discriminate|]. right. right. repeat split; assumption.
  - cbn in E. injection E as <-. exact (newest_same _ _ _ _ _ s _ eq_refl eq_refl eq_refl eq_refl eq_refl S').
Qed.
Lemma newest_run s1 t k w c s : forallb quiet t = true -> newest s1 [] k w c s1 -> run s1 t = Some s -> newest s1 t k w c s.
Proof.
  intros Q S0. revert s Q. induction t as [|a t IH] using rev_ind; intros s Q R; [injection R as <-; exact S0|].
  rewrite forallb_app in Q. apply andb_true_iff in Q as [Q Qa]. cbn [forallb] in Qa. rewrite andb_true_r in Qa.
  rewrite run_snoc in R. destruct (run s1 t) as [s2|] eqn:R1; [|discriminate]. exact (newest_step _ _ _ _ _ _ _ _ Qa R1 (IH _ Q eq_refl) R).
Qed.
Lemma newest_start s k w c x s1 : inv s -> zombie _ s = false -> step s (Enqueue _ k w c x) = Some s1 -> newest s1 [] k w c s1.
Proof.
  intros (I1 & I2 & _) Z E. cbn in E. destruct (mp _ s); try discriminate. injection E as <-. unfold enqueue, store, usable, newest. cbn [zombie]. rewrite Z. cbn. split; [first [exact Z|reflexivity]|]. split; [|left; split; [reflexivity|discriminate]].
  destruct (thread _ s) eqn:T; [|discriminate]. intro H. unfold winv in I1. rewrite H in I1. destruct I1 as [I1 _]. congruence.
Qed.
End Rec.
