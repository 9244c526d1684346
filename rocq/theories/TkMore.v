From Verif Require Import Base TkModel TkSpec TkProofs.

Lemma once_cnt e h : (cnt e h <= 1)%nat -> at_most_once e h.
Proof.
  intros H l1 l2 l3 ->. unfold cnt in H. rewrite count_occ_app in H. cbn [count_occ] in H. destruct (event_eq e e) as [_|X]; [|now apply X].
  rewrite count_occ_app in H. cbn [count_occ] in H. destruct (event_eq e e) as [_|X]; [|now apply X]. lia.
Qed.
Lemma reachable_inv s : reachable s -> Inv s.
Proof. intros [ls H]. apply (run_inv ls initial); [exact initial_inv|exact H]. Qed.
Lemma out_not_in s i : Inv s -> (s_n s <= i)%nat -> ~ In (Ran i) (s_log s) /\ ~ In (Freed i) (s_log s).
Proof. intros HI L. destruct (inv_out s HI i L) as (A & B & C & D). rewrite !cnt_in. lia. Qed.
(** how the history grows *)
Lemma in_freed_rev i u : ~ In (Ran i) (rev (map Freed u)).
Proof. rewrite <- map_rev, in_map_iff. intros (x & A & _). discriminate. Qed.
Lemma worker_log i s s' : worker i s = Some s' -> s_log s' = s_log s /\ s_map s' = s_map s /\ s_n s' = s_n s /\ s_main s' = s_main s /\ s_unref s' = s_unref s.
Proof.
  unfold worker, detach_handle. destruct (t_pc (s_task s i)); try (destruct (t_handle (s_task s i))); intros H; try discriminate; injection H as <-; repeat (split; [reflexivity|]); reflexivity.
Qed.
Lemma ran_step l s s' i : Inv s -> step l s = Some s' -> In (Ran i) (s_log s') -> ~ In (Ran i) (s_log s) ->
  l = LMain /\ (exists t, s_main s = MRun i t) /\ t_run (s_task s i) = true /\ t_ref (s_task s i) = true.
Proof.
  intros HI H A B. destruct l as [j| |key cb ru| | |final|j]; cbn [step] in H.
  - destruct (j <? s_n s)%nat; [|discriminate]. apply worker_log in H. destruct H as (E & _). rewrite E in A. contradiction.
  - split; [reflexivity|]. unfold main in H. destruct (s_main s) as [|j|k l|j l|d k j l] eqn:E; try discriminate.
    + injection H as <-. contradiction.
    + destruct l as [|j l]; destruct k; injection H as <-; cbn in A; try contradiction. apply in_app_or in A. destruct A as [A|A]; [now apply in_freed_rev in A|contradiction].
    + injection H as <-. destruct (t_run (s_task s j) && t_ref (s_task s j)) eqn:R; cbn in A; [|contradiction]. destruct A as [A|A]; [|contradiction]. injection A as ->. apply andb_true_iff in R. destruct R. split; [now exists l|auto].
    + unfold detach_handle in H. destruct d; try (destruct (t_handle (s_task s j))); injection H as <-; contradiction.
  - destruct (s_main s); try discriminate. destruct (s_zombie s || has_key s key); [discriminate|]. injection H as <-. contradiction.
  - destruct (s_main s); try discriminate. destruct (s_event s); [|discriminate]. injection H as <-. contradiction.
  - destruct (s_main s); try discriminate. injection H as <-. contradiction.
  - destruct (s_main s); try discriminate. destruct (s_zombie s); [discriminate|]. injection H as <-. contradiction.
  - destruct (s_main s); try discriminate. destruct ((j <? s_n s)%nat && t_complete (s_task s j)); [|discriminate]. injection H as <-. contradiction.
Qed.
Lemma event_in_dec i h : In (Ran i) h \/ ~ In (Ran i) h.
Proof. destruct (in_dec event_eq (Ran i) h); auto. Qed.
(** tasks do not come back *)
Lemma gone_step l s s' i : Inv s -> step l s = Some s' -> (i < s_n s)%nat -> ~ In i (s_map s) -> (i < s_n s')%nat /\ ~ In i (s_map s').
Proof.
  intros HI H L M. destruct l as [j| |key cb ru| | |final|j]; cbn [step] in H.
  - destruct (j <? s_n s)%nat; [|discriminate]. apply worker_log in H. destruct H as (_ & E & F & _). rewrite E, F. auto.
  - unfold main, detach_handle in H. destruct (s_main s) as [|j|k l|j l|d k j l] eqn:E; try discriminate.
    + injection H as <-. auto.
    + destruct l as [|j l]; destruct k; injection H as <-; cbn; auto.
    + injection H as <-. destruct (t_run (s_task s j) && t_ref (s_task s j)); cbn; auto.
    + destruct d; try (destruct (t_handle (s_task s j))); injection H as <-; cbn; auto; (split; [exact L|]); rewrite in_remove; intros [A _]; contradiction.
  - destruct (s_main s); try discriminate. destruct (s_zombie s || has_key s key); [discriminate|]. injection H as <-. cbn. split; [lia|]. intros [A|A]; [lia|contradiction].
  - destruct (s_main s); try discriminate. destruct (s_event s); [|discriminate]. injection H as <-. auto.
  - destruct (s_main s); try discriminate. injection H as <-. auto.
  - destruct (s_main s); try discriminate. destruct (s_zombie s); [discriminate|]. injection H as <-. auto.
  - destruct (s_main s); try discriminate. destruct ((j <? s_n s)%nat && t_complete (s_task s j)); [|discriminate]. injection H as <-. auto.
Qed.
Lemma gone_run ls : forall s s' i, Inv s -> run ls s = Some s' -> (i < s_n s)%nat -> ~ In i (s_map s) -> ~ In (Ran i) (s_log s) -> ~ In (Ran i) (s_log s').
Proof.
  induction ls as [|l ls IH]; cbn; intros s s' i HI H L M N; [injection H as <-; exact N|]. destruct (step l s) as [s1|] eqn:E; [|discriminate].
  destruct (gone_step _ _ _ _ HI E L M) as [L1 M1]. apply (IH s1); auto; [now apply (step_inv l s)|].
  intros Q. destruct (ran_step _ _ _ _ HI E Q N) as (_ & (t & R) & _). apply M. destruct (inv_todo s HI) as [_ T]. rewrite R in T. apply T. now left.
Qed.
(** the end of a line *)
Definition EInv (s : state) : Prop := match s_main s with MVisit (KEnd _) l => forall j, In j (s_map s) -> t_ruc (s_task s j) = false -> In j l | MDet _ (KEnd _) i l => forall j, In j (s_map s) -> t_ruc (s_task s j) = false -> In j (i :: l) | _ => True end.
Lemma ruc_upd f i t' j : t_ruc t' = t_ruc (f i) -> t_ruc (upd f i t' j) = t_ruc (f j).
Proof. intros E. unfold upd. destruct (j =? i)%nat eqn:A; [apply Nat.eqb_eq in A; now subst j|reflexivity]. Qed.
Lemma worker_ruc i s s' j : worker i s = Some s' -> t_ruc (s_task s' j) = t_ruc (s_task s j).
Proof.
  unfold worker, detach_handle. destruct (t_pc (s_task s i)); try (destruct (t_handle (s_task s i))); intros H; try discriminate; injection H as <-; cbn; now rewrite ruc_upd.
Qed.
Lemma einv_step l s s' : EInv s -> step l s = Some s' -> EInv s'.
Proof.
  intros HE H. destruct l as [i| |key cb ru| | |final|i]; cbn [step] in H.
  - destruct (i <? s_n s)%nat; [|discriminate]. pose proof (worker_log _ _ _ H) as (_ & E & _ & F & _). unfold EInv in *. rewrite E, F. destruct (s_main s) as [|j|k l|j l|d k j l]; auto; destruct k; auto; intros x Hx; rewrite (worker_ruc _ _ _ _ H); now apply HE.
  - unfold EInv in HE. unfold main, detach_handle in H. destruct (s_main s) as [|j|k l|j l|d k j l] eqn:E; try discriminate.
    + injection H as <-. exact Logic.I.
    + destruct l as [|j l]; destruct k; injection H as <-; try exact Logic.I; unfold EInv; cbn.
      * destruct (t_complete (s_task s j)); exact Logic.I.
      * destruct (t_ruc (s_task s j)) eqn:R; [|exact HE]. intros x Hx Rx. destruct (HE x Hx Rx) as [A|A]; [subst x; congruence|exact A].
    + injection H as <-. exact Logic.I.
    + destruct d; try (destruct (t_handle (s_task s j))); injection H as <-; unfold EInv; cbn; destruct k; auto; intros x Hx; rewrite ?ruc_upd by reflexivity; try (now apply HE).
      all: intros R; apply in_remove in Hx; destruct Hx as [Hx Q]; destruct (HE x Hx R) as [A|A]; [congruence|exact A].
  - destruct (s_main s); try discriminate. destruct (s_zombie s || has_key s key); [discriminate|]. injection H as <-. exact Logic.I.
  - destruct (s_main s); try discriminate. destruct (s_event s); [|discriminate]. injection H as <-. exact Logic.I.
  - destruct (s_main s); try discriminate. injection H as <-. cbn. auto.
  - destruct (s_main s); try discriminate. destruct (s_zombie s); [discriminate|]. injection H as <-. exact Logic.I.
  - destruct (s_main s) eqn:E; try discriminate. destruct ((i <? s_n s)%nat && t_complete (s_task s i)); [|discriminate]. injection H as <-. unfold EInv. cbn. rewrite E. exact Logic.I.
Qed.
Lemma einv_run ls : forall s s', EInv s -> run ls s = Some s' -> EInv s'.
Proof. induction ls as [|l ls IH]; cbn; intros s s' HI H; [injection H as <-; exact HI|]. destruct (step l s) as [s1|] eqn:E; [|discriminate]. apply (IH s1); [|exact H]. now apply (einv_step l s). Qed.
(** one task alone *)
Definition AInv (s : state) : Prop :=
  (s_n s <= 1)%nat /\ (s_event s = true -> s_n s = 1%nat /\ (s_map s = [] \/ t_pc (s_task s 0%nat) = WEnd)) /\
  (end_main (s_main s) = true -> s_n s = 1%nat /\ s_map s = []) /\
  (idle_main (s_main s) = true -> todo (s_main s) = [] \/ t_pc (s_task s 0%nat) = WEnd) /\ (forall i, ~ In (Ran i) (s_log s)).
Lemma single l : (forall x, In x l -> x = 0%nat) -> NoDup l -> l = [] \/ l = [0%nat].
Proof. destruct l as [|x [|y l]]; intros H D; [now left|right; now rewrite (H x (or_introl eq_refl))|]. exfalso. inversion D; subst. apply H2. left. rewrite (H x (or_introl eq_refl)), (H y); [reflexivity|right; now left]. Qed.
Lemma ainv_worker s s' : Inv s -> AInv s -> (0 < s_n s)%nat -> worker 0 s = Some s' -> AInv s'.
Proof.
  intros HI (A & B & C & D & F) L H. destruct (worker_log _ _ _ H) as (E1 & E2 & E3 & E4 & _). unfold AInv. rewrite E1, E2, E3, E4.
  destruct (t_pc (s_task s 0%nat)) eqn:P; unfold worker in H; rewrite P in H; [| | | | | | | |discriminate].
  all: try (assert (X : s_event s' = s_event s) by (unfold detach_handle in H; try (destruct (t_handle (s_task s 0%nat))); injection H as <-; reflexivity);
    rewrite X; split; [exact A|]; split; [intros V; destruct (B V) as [B1 [B2|B2]]; [auto|discriminate]|]; split; [exact C|]; split; [intros V; destruct (D V) as [D1|D1]; [auto|discriminate]|exact F]).
  injection H as <-. cbn [set_event set_task s_event s_task]. rewrite upd_same. split; [exact A|]. split; [intros _; split; [lia|now right]|]. split; [exact C|]. split; [intros _; now right|exact F].
Qed.
Lemma ainv_main s s' : Inv s -> AInv s -> main s = Some s' -> AInv s'.
Proof.
  intros HI (A & B & C & D & F) H. destruct (inv_todo s HI) as [T1 T2]. pose proof (inv_lt s HI) as LT. rewrite Forall_forall in LT. pose proof (inv_map s HI) as ND.
  assert (Z : forall x, In x (s_map s) -> x = 0%nat) by (intros x Hx; apply LT in Hx; lia).
  unfold main in H. destruct (s_main s) as [|i|k l|i l|d k i l] eqn:E; cbn [todo idle_main end_main] in *; [discriminate| | | |].
  - injection H as <-. unfold AInv. cbn. split; [exact A|]. split. { intros V. destruct (B V) as [B1 B2]. split; [exact B1|]. destruct B2 as [B2|B2]; [now left|right]. unfold upd. destruct i; [exact B2|exact B2]. } split; [discriminate|]. split; [discriminate|exact F].
  - destruct l as [|i l].
    + destruct k as [|b|]; injection H as <-; unfold AInv; cbn; (split; [exact A|]).
      * split; [exact B|]. split; [discriminate|]. split; [discriminate|]. intros i Q. apply in_app_or in Q. destruct Q as [Q|Q]; [now apply in_freed_rev in Q|now apply F in Q].
      * split. { intros V. apply orb_true_iff in V. destruct V as [V|V]; [|now apply B]. destruct (C V). auto. } split; [discriminate|]. split; [discriminate|exact F].
      * split; [exact B|]. split; [discriminate|]. split; [discriminate|exact F].
    + destruct k as [|b|]; injection H as <-; unfold AInv; cbn; (split; [exact A|]; split; [exact B|]).
      * destruct (t_complete (s_task s i)); cbn; (split; [discriminate|]); (split; [|exact F]); intros _; destruct (D eq_refl) as [D1|D1]; try discriminate; auto.
      * destruct (t_ruc (s_task s i)); cbn; (split; [exact C|]); (split; [discriminate|exact F]).
      * split; [discriminate|]. split; [discriminate|exact F].
  - assert (M : In i (s_map s)) by (apply T2; now left). pose proof (Z i M) as ->. destruct (D eq_refl) as [D1|D1]; [discriminate|].
    destruct (inv_task s HI 0%nat (LT _ M)) as (A0 & B0 & _). destruct (t_run (s_task s 0%nat)) eqn:R; [rewrite D1 in B0; discriminate (B0 eq_refl)|]. cbn [andb] in H.
    injection H as <-. unfold AInv. cbn. split; [exact A|]. split; [intros V; destruct (B V); auto|]. split; [discriminate|]. split; [intros _; now right|exact F].
  - assert (M : In i (s_map s)) by (apply T2; now left). pose proof (Z i M) as ->.
    assert (NE : end_main (s_main s) = false). { rewrite E. cbn. destruct k as [|b|]; try reflexivity. destruct b; [|reflexivity]. destruct (C eq_refl) as [_ C1]. rewrite C1 in M. destruct M. }
    assert (W : idle_main (s_main s) = true -> t_pc (s_task s 0%nat) = WEnd). { rewrite E. cbn. intros V. destruct (D V) as [D1|D1]; [discriminate|exact D1]. } rewrite E in NE, W. cbn in NE, W.
    assert (G : forall t' d' cr, t_pc t' = t_pc (s_task s 0%nat) -> AInv (mkS (s_n s) (upd (s_task s) 0 t') (s_map s) (s_unref s) (s_event s) (s_zombie s) (MDet d' k 0 l) (s_log s) (s_dropped s) cr)).
    { intros t' d' cr P. unfold AInv. cbn [s_n s_event s_map s_main s_log s_task end_main idle_main todo]. rewrite upd_same, P. split; [exact A|]. split; [exact B|]. split; [intros V; cbn in V; rewrite NE in V; discriminate|]. split; [intros V; right; now apply W|exact F]. }
    unfold detach_handle in H. destruct d.
    + injection H as <-. now apply G.
    + injection H as <-. unfold set_main. unfold AInv. destruct (t_handle (s_task s 0%nat)); cbn; (split; [exact A|]; split; [exact B|]; split; [intros V; rewrite NE in V; discriminate|]; split; [intros V; right; now apply W|exact F]).
    + destruct (t_handle (s_task s 0%nat)); injection H as <-; now apply G.
    + injection H as <-. now apply G.
    + injection H as <-. destruct (single _ Z ND) as [Q|Q]; [rewrite Q in M; destruct M|]. rewrite Q.
      assert (LE : l = []). { destruct l as [|y l]; [reflexivity|]. exfalso. inversion T1; subst. apply H1. left. apply Z. apply T2. right. now left. } subst l.
      pose proof (LT _ M) as L0. unfold AInv. cbn. split; [exact A|]. split; [intros _; split; [lia|now left]|]. split; [intros _; split; [lia|reflexivity]|]. split; [intros _; now left|exact F].
Qed.
Lemma ainv_step l s s' : Inv s -> AInv s -> (is_add l = true -> s_n s = 0%nat) -> step l s = Some s' -> AInv s' /\ s_n s' = (s_n s + b2n (is_add l))%nat.
Proof.
  intros HI HA HL H. pose proof HA as (A & B & C & D & F). destruct l as [i| |key cb ru| | |final|i]; cbn [step is_add b2n] in *; rewrite ?Nat.add_0_r.
  - destruct (Nat.ltb_spec i (s_n s)) as [L|L]; [|discriminate]. assert (i = 0%nat) as -> by lia. split; [now apply (ainv_worker s)|]. now apply worker_log in H.
  - split; [now apply (ainv_main s)|]. unfold main, detach_handle in H. destruct (s_main s) as [|j|k l|j l|d k j l]; try discriminate; [injection H as <-; reflexivity| | |].
    + destruct l; destruct k; injection H as <-; reflexivity.
    + destruct (t_run (s_task s j) && t_ref (s_task s j)); injection H as <-; reflexivity.
    + destruct d; try (destruct (t_handle (s_task s j))); injection H as <-; reflexivity.
  - specialize (HL eq_refl). destruct (s_main s) eqn:E; try discriminate. destruct (s_zombie s || has_key s key); [discriminate|]. injection H as <-. unfold AInv. cbn. split; [|lia].
    split; [lia|]. split. { intros V. destruct (B V). lia. } split; [discriminate|]. split; [discriminate|exact F].
  - destruct (s_main s) eqn:E; try discriminate. destruct (s_event s) eqn:V; [|discriminate]. injection H as <-. split; [|reflexivity]. unfold AInv. cbn. destruct (B eq_refl) as [_ B2].
    split; [exact A|]. split; [discriminate|]. split; [discriminate|]. split; [intros _; exact B2|exact F].
  - destruct (s_main s) eqn:E; try discriminate. injection H as <-. split; [|reflexivity]. unfold AInv. cbn. split; [exact A|]. split; [exact B|]. split; [discriminate|]. split; [discriminate|exact F].
  - destruct (s_main s) eqn:E; try discriminate. destruct (s_zombie s); [discriminate|]. injection H as <-. split; [|reflexivity]. unfold AInv. cbn. split; [exact A|]. split; [exact B|]. split; [discriminate|]. split; [discriminate|exact F].
  - destruct (s_main s) eqn:E; try discriminate. destruct ((i <? s_n s)%nat && t_complete (s_task s i)); [|discriminate]. injection H as <-. split; [|reflexivity]. unfold AInv. cbn [set_task s_n s_event s_map s_main s_log s_task]. rewrite E.
    rewrite pc_upd by reflexivity. split; [exact A|]. split; [exact B|]. split; [discriminate|]. split; [discriminate|exact F].
Qed.
Lemma ainv_run ls : forall s s', Inv s -> AInv s -> (List.length (filter is_add ls) + s_n s <= 1)%nat -> run ls s = Some s' -> AInv s'.
Proof.
  induction ls as [|l ls IH]; intros s s' HI HA HL H; cbn [run filter] in *; [injection H as <-; exact HA|]. destruct (step l s) as [s1|] eqn:E; [|discriminate].
  assert (X : is_add l = true -> s_n s = 0%nat) by (intros V; rewrite V in HL; cbn in HL; lia).
  destruct (ainv_step _ _ _ HI HA X E) as [A1 A2]. apply (IH s1); auto; [now apply (step_inv l s)|]. rewrite A2. destruct (is_add l); cbn in *; lia.
Qed.
Lemma initial_ainv : AInv initial.
Proof. unfold AInv. cbn. split; [lia|]. split; [discriminate|]. split; [discriminate|]. split; [discriminate|]. intros i []. Qed.
