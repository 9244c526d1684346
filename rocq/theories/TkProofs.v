From Verif Require Import Base TkModel.

Definition past_complete (p : wpc) : bool := match p with WWork | WComplete => false | _ => true end.
Definition past_cancel (p : wpc) : bool := match p with WWork | WComplete | WCancel => false | _ => true end.
Definition event_eq (a b : event) : {a = b} + {a <> b}.
Proof. decide equality; apply Nat.eq_dec. Qed.
Definition cnt (e : event) (l : list event) : nat := count_occ event_eq l e.
Definition cntn (i : nat) (l : list nat) : nat := count_occ Nat.eq_dec l i.
Definition b2n (b : bool) : nat := if b then 1%nat else 0%nat.

(** what the main thread is still going to visit *)
Definition todo (m : mpc) : list nat := match m with MVisit _ l => l | MRun i l => i :: l | MDet _ _ i l => i :: l | _ => [] end.
Definition idle_main (m : mpc) : bool := match m with MVisit KIdle _ | MRun _ _ | MDet _ KIdle _ _ => true | _ => false end.
Definition end_main (m : mpc) : bool := match m with MVisit (KEnd b) _ | MDet _ (KEnd b) _ _ => b | _ => false end.

Definition task_ok (s : state) (i : nat) : Prop :=
  let t := s_task s i in
  t_complete t = past_complete (t_pc t) /\
  (t_run t = true -> past_cancel (t_pc t) = false) /\
  (b2n (t_ref t) + cntn i (s_unref s) + cnt (Freed i) (s_log s) + cntn i (s_dropped s) = b2n (t_had t))%nat /\
  (t_ref t = true -> In i (s_map s)) /\
  (cnt (Ran i) (s_log s) <= 1)%nat /\
  (In (Ran i) (s_log s) -> t_run t = false /\ t_complete t = true) /\
  (forall l1 l2, s_log s = l1 ++ Ran i :: l2 -> ~ In (Freed i) l2) /\
  (In i (s_map s) -> t_pc t = WEnd -> s_event s = true \/ idle_main (s_main s) = true /\ In i (todo (s_main s))) /\
  (match s_main s with MRun j _ => j = i -> t_complete t = true | MDet _ KIdle j _ => j = i -> t_complete t = true | _ => True end).
Record Inv (s : state) : Prop := mkInv {
  inv_map : NoDup (s_map s);
  inv_lt : Forall (fun i => i < s_n s)%nat (s_map s);
  inv_todo : NoDup (todo (s_main s)) /\ incl (todo (s_main s)) (s_map s);
  inv_task : forall i, (i < s_n s)%nat -> task_ok s i;
  inv_out : forall i, (s_n s <= i)%nat -> cntn i (s_unref s) = 0%nat /\ cnt (Freed i) (s_log s) = 0%nat /\ cntn i (s_dropped s) = 0%nat /\ cnt (Ran i) (s_log s) = 0%nat;
  inv_unref : s_unref s <> [] -> s_event s = true \/ idle_main (s_main s) = true \/ end_main (s_main s) = true;
  inv_keys : NoDup (map (fun i => t_key (s_task s i)) (s_map s)) }.

Lemma upd_same f i t : upd f i t i = t.
Proof. unfold upd. now rewrite Nat.eqb_refl. Qed.
Lemma upd_other f i t j : j <> i -> upd f i t j = f j.
Proof. intros E. unfold upd. destruct (j =? i)%nat eqn:A; [lia|reflexivity]. Qed.
Lemma in_remove i j l : In j (remove_id i l) <-> In j l /\ j <> i.
Proof. unfold remove_id. rewrite filter_In. split; intros [A B]; (split; [exact A|]); destruct (j =? i)%nat eqn:E; cbn in *; try discriminate; try lia; reflexivity. Qed.
Lemma nodup_remove i l : NoDup l -> NoDup (remove_id i l).
Proof. apply NoDup_filter. Qed.
Lemma nodup_map_filter (g : nat -> N) p l : NoDup (map g l) -> NoDup (map g (filter p l)).
Proof.
  induction l as [|x l IH]; cbn; intros D; [exact D|]. inversion D; subst. destruct (p x); cbn; [|now apply IH].
  constructor; [|now apply IH]. intros H. apply H1. rewrite in_map_iff in *. destruct H as (y & A & B). exists y. split; [exact A|]. now apply filter_In in B.
Qed.
Lemma cnt_rev_app e l l' : cnt e (rev (map Freed l) ++ l') = (cnt e (map Freed l) + cnt e l')%nat.
Proof. unfold cnt. rewrite count_occ_app, count_occ_rev. reflexivity. Qed.
Lemma cnt_freed i l : cnt (Freed i) (map Freed l) = cntn i l.
Proof. unfold cnt, cntn. induction l as [|x l IH]; cbn; [reflexivity|]. destruct (event_eq (Freed x) (Freed i)) as [E|E]; destruct (Nat.eq_dec x i) as [F|F]; congruence. Qed.
Lemma cnt_ran i l : cnt (Ran i) (map Freed l) = 0%nat.
Proof. unfold cnt. induction l as [|x l IH]; cbn; [reflexivity|]. destruct (event_eq (Freed x) (Ran i)) as [E|E]; congruence. Qed.
Lemma cntn_app i l j : cntn i (l ++ [j]) = (cntn i l + b2n (j =? i)%nat)%nat.
Proof. unfold cntn. rewrite count_occ_app. cbn. destruct (Nat.eq_dec j i) as [E|E]; destruct (j =? i)%nat eqn:A; cbn; lia. Qed.
Lemma cntn_cons i l j : cntn i (j :: l) = (b2n (j =? i)%nat + cntn i l)%nat.
Proof. unfold cntn. cbn. destruct (Nat.eq_dec j i) as [E|E]; destruct (j =? i)%nat eqn:A; cbn; lia. Qed.
Lemma cnt_cons_ran i j l : cnt (Ran i) (Ran j :: l) = (b2n (j =? i)%nat + cnt (Ran i) l)%nat.
Proof. unfold cnt. cbn. destruct (event_eq (Ran j) (Ran i)) as [E|E]; destruct (j =? i)%nat eqn:A; cbn; try lia; exfalso; [injection E; lia|]. apply E. f_equal. lia. Qed.
Lemma cnt_cons_fr i j l : cnt (Freed i) (Ran j :: l) = cnt (Freed i) l.
Proof. unfold cnt. cbn. destruct (event_eq (Ran j) (Freed i)) as [E|E]; [discriminate|reflexivity]. Qed.
Lemma cnt_in e l : In e l <-> (cnt e l > 0)%nat.
Proof. unfold cnt. apply count_occ_In. Qed.
Lemma log_order_freed i l u l1 l2 : (forall l1 l2, l = l1 ++ Ran i :: l2 -> ~ In (Freed i) l2) -> rev (map Freed u) ++ l = l1 ++ Ran i :: l2 -> ~ In (Freed i) l2.
Proof.
  intros H. rewrite <- map_rev. remember (rev u) as v. clear Heqv u. revert l1. induction v as [|x v IH]; intros l1 E; cbn in E; [now apply (H l1)|].
  destruct l1 as [|y l1]; [discriminate|]. injection E as E1 E2. now apply (IH l1).
Qed.
(** a change of one task that keeps its key *)
Lemma map_upd (s : state) i t l : t_key t = t_key (s_task s i) -> map (fun j => t_key (upd (s_task s) i t j)) l = map (fun j => t_key (s_task s j)) l.
Proof. intros E. apply map_ext. intros j. unfold upd. destruct (j =? i)%nat eqn:A; [|reflexivity]. apply Nat.eqb_eq in A. subst j. exact E. Qed.
(** tasks other than the one that is changed *)
Lemma task_ok_frame s s' i : s_task s' i = s_task s i -> s_unref s' = s_unref s -> s_log s' = s_log s -> s_dropped s' = s_dropped s ->
  s_map s' = s_map s -> (s_event s = true -> s_event s' = true) -> (idle_main (s_main s) = true -> In i (todo (s_main s)) -> s_event s' = true \/ t_pc (s_task s i) <> WEnd \/ idle_main (s_main s') = true /\ In i (todo (s_main s'))) ->
  (match s_main s' with MRun j _ => j = i -> t_complete (s_task s i) = true | MDet _ KIdle j _ => j = i -> t_complete (s_task s i) = true | _ => True end) -> task_ok s i -> task_ok s' i.
Proof.
  intros E1 E2 E3 E4 E5 E6 E7 E8 (A & B & C & D & F & G & H & J & K). unfold task_ok. rewrite E1, E2, E3, E4, E5. cbv zeta.
  split; [exact A|]. split; [exact B|]. split; [exact C|]. split; [exact D|]. split; [exact F|]. split; [exact G|]. split; [exact H|]. split; [|exact E8].
  intros M P. destruct (J M P) as [V|[V W]]; [left; auto|]. destruct (E7 V W) as [X|[X|X]]; [now left|contradiction|now right].
Qed.
(** what a change of a task must keep *)
Definition keeps (t t' : task) : Prop :=
  t_key t' = t_key t /\ t_ref t' = t_ref t /\ t_had t' = t_had t /\ (t_run t' = true -> t_run t = true) /\ t_complete t' = past_complete (t_pc t') /\
  (t_run t' = true -> past_cancel (t_pc t') = false) /\ (t_complete t = true -> t_complete t' = true).
Definition main_complete (f : nat -> task) (m : mpc) : Prop := match m with MRun j _ => t_complete (f j) = true | MDet _ KIdle j _ => t_complete (f j) = true | _ => True end.
Lemma inv_change s f ev z m cr :
  Inv s -> (forall j, (j < s_n s)%nat -> keeps (s_task s j) (f j)) -> NoDup (todo m) -> incl (todo m) (s_map s) ->
  (forall j, In j (s_map s) -> t_pc (f j) = WEnd -> ev = true \/ idle_main m = true /\ In j (todo m)) -> main_complete f m ->
  (s_unref s <> [] -> ev = true \/ idle_main m = true \/ end_main m = true) ->
  Inv (mkS (s_n s) f (s_map s) (s_unref s) ev z m (s_log s) (s_dropped s) cr).
Proof.
  intros HI HK HD HT HW HC HU. destruct HI as [I1 I2 I3 I4 I5 I6 I7].
  constructor; cbn [s_map s_n s_main s_unref s_event s_log s_dropped s_task].
  - exact I1.
  - exact I2.
  - split; assumption.
  - intros i L. destruct (I4 i L) as (A & B & C & D & F & G & H & J & K). destruct (HK i L) as (k1 & k2 & k3 & k4 & k5 & k6 & k7).
    unfold task_ok. cbn [s_map s_n s_main s_unref s_event s_log s_dropped s_task]. cbv zeta. rewrite k2, k3.
    split; [exact k5|]. split; [exact k6|]. split; [exact C|]. split; [exact D|]. split; [exact F|].
    split. { intros R. destruct (G R) as [G1 G2]. split; [|now apply k7]. destruct (t_run (f i)); [|reflexivity]. rewrite (k4 eq_refl) in G1. discriminate. }
    split; [exact H|]. split; [now apply HW|]. unfold main_complete in HC. destruct m as [|j|k l|j l|d k j l]; try exact Logic.I; [intros ->; exact HC|]. destruct k; try exact Logic.I. intros ->. exact HC.
  - exact I5.
  - exact HU.
  - rewrite (map_ext_in _ (fun i => t_key (s_task s i))); [exact I7|]. intros j Hj. rewrite Forall_forall in I2. now destruct (HK j (I2 _ Hj)) as (k1 & _).
Qed.
Lemma keeps_id s j : Inv s -> (j < s_n s)%nat -> keeps (s_task s j) (s_task s j).
Proof. intros HI L. destruct (inv_task s HI j L) as (A & B & _). unfold keeps. repeat (split; [auto|]); auto. Qed.
Lemma keeps_upd s i t' : Inv s -> keeps (s_task s i) t' -> forall j, (j < s_n s)%nat -> keeps (s_task s j) (upd (s_task s) i t' j).
Proof. intros HI K j L. unfold upd. destruct (j =? i)%nat eqn:E; [apply Nat.eqb_eq in E; now subst j|now apply keeps_id]. Qed.

Lemma wake_same s : Inv s -> forall j, In j (s_map s) -> t_pc (s_task s j) = WEnd -> s_event s = true \/ idle_main (s_main s) = true /\ In j (todo (s_main s)).
Proof. intros HI j M P. pose proof (inv_lt s HI) as L. rewrite Forall_forall in L. destruct (inv_task s HI j (L _ M)) as (_ & _ & _ & _ & _ & _ & _ & J & _). now apply J. Qed.
Lemma main_complete_same s : Inv s -> main_complete (s_task s) (s_main s).
Proof.
  intros HI. unfold main_complete. destruct (inv_todo s HI) as [_ T]. pose proof (inv_lt s HI) as L. rewrite Forall_forall in L.
  destruct (s_main s) as [|j|k l|j l|d k j l] eqn:E; try exact Logic.I.
  - assert (M : In j (s_map s)) by (apply T; left; reflexivity). destruct (inv_task s HI j (L _ M)) as (_ & _ & _ & _ & _ & _ & _ & _ & K). rewrite E in K. now apply K.
  - destruct k; try exact Logic.I. assert (M : In j (s_map s)) by (apply T; left; reflexivity). destruct (inv_task s HI j (L _ M)) as (_ & _ & _ & _ & _ & _ & _ & _ & K). rewrite E in K. now apply K.
Qed.
Lemma main_complete_upd f i t' m : main_complete f m -> (t_complete (f i) = true -> t_complete t' = true) -> main_complete (upd f i t') m.
Proof. intros H C. unfold main_complete, upd in *. destruct m as [|j|k l|j l|d k j l]; try exact Logic.I; [|destruct k; try exact Logic.I]; destruct (j =? i)%nat eqn:E; auto; apply Nat.eqb_eq in E; subst j; auto. Qed.

(** a change of one task by its thread *)
Lemma inv_worker s i t' ev cr : Inv s -> (i < s_n s)%nat -> keeps (s_task s i) t' -> (s_event s = true -> ev = true) -> (t_pc t' = WEnd -> ev = true) ->
  Inv (mkS (s_n s) (upd (s_task s) i t') (s_map s) (s_unref s) ev (s_zombie s) (s_main s) (s_log s) (s_dropped s) cr).
Proof.
  intros HI L K E1 E2. destruct (inv_todo s HI) as [T1 T2]. apply inv_change; auto.
  - now apply keeps_upd.
  - intros j M P. unfold upd in P. destruct (j =? i)%nat; [left; now apply E2|]. destruct (wake_same s HI j M P) as [A|A]; auto.
  - apply main_complete_upd; [now apply main_complete_same|apply K].
  - intros U. destruct (inv_unref s HI U) as [A|A]; auto.
Qed.
Lemma worker_inv s i s' : Inv s -> (i < s_n s)%nat -> worker i s = Some s' -> Inv s'.
Proof.
  intros HI L H. destruct (inv_task s HI i L) as (A & B & _). unfold worker in H.
  destruct (s_task s i) as [key ref rn cp cn ru hd evt p had] eqn:T. cbn [t_pc t_handle t_complete t_run detach_handle] in *.
  assert (KG : forall t', (t_key t' = key /\ t_ref t' = ref /\ t_had t' = had /\ (t_run t' = true -> rn = true) /\ t_complete t' = past_complete (t_pc t') /\ (t_run t' = true -> past_cancel (t_pc t') = false) /\ (cp = true -> t_complete t' = true)) -> keeps (s_task s i) t') by (intros t' Q; rewrite T; exact Q).
  destruct p; cbn in A, B, H.
  - injection H as <-. apply inv_worker; auto; [|cbn; discriminate]. apply KG. cbn. rewrite A. repeat (split; [auto|]); auto.
  - injection H as <-. apply inv_worker; auto; [|cbn; discriminate]. apply KG. cbn. repeat (split; [auto|]); auto.
  - injection H as <-. apply inv_worker; auto; [|cbn; discriminate]. apply KG. cbn. rewrite A. repeat (split; [auto|]); auto; discriminate.
  - destruct hd; injection H as <-; (apply inv_worker; auto; [|cbn; discriminate]); apply KG; cbn; rewrite A; repeat (split; [auto|]); auto.
  - destruct hd; cbn in H; injection H as <-; unfold set_crash, set_task; cbn [s_n s_task s_map s_unref s_event s_zombie s_main s_log s_dropped s_crash]; (apply inv_worker; auto; [|cbn; discriminate]); apply KG; cbn; rewrite A; repeat (split; [auto|]); auto.
  - injection H as <-. apply inv_worker; auto; [|cbn; discriminate]. apply KG. cbn. rewrite A. repeat (split; [auto|]); auto.
  - injection H as <-. apply inv_worker; auto; [|cbn; discriminate]. apply KG. cbn. rewrite A. repeat (split; [auto|]); auto.
  - injection H as <-. unfold set_event, set_task. cbn. apply inv_worker; auto. apply KG. cbn. rewrite A. repeat (split; [auto|]); auto.
  - discriminate.
Qed.

(** a step of the main thread that changes no reference *)
Lemma keeps_cancel s i : Inv s -> (i < s_n s)%nat -> keeps (s_task s i) (cancel (s_task s i)).
Proof. intros HI L. destruct (inv_task s HI i L) as (A & _). unfold keeps, cancel. cbn. repeat (split; [auto; discriminate|]). auto. Qed.
Lemma keeps_disable s i : Inv s -> (i < s_n s)%nat -> keeps (s_task s i) (disable (s_task s i)).
Proof. intros HI L. destruct (inv_task s HI i L) as (A & _). unfold keeps, disable. cbn. repeat (split; [auto; discriminate|]). auto. Qed.
Lemma keeps_handle s i h : Inv s -> (i < s_n s)%nat -> keeps (s_task s i) (set_handle (s_task s i) h).
Proof. intros HI L. destruct (inv_task s HI i L) as (A & B & _). unfold keeps, set_handle. cbn. repeat (split; [auto|]). auto. Qed.
Lemma pc_upd f i t' j : t_pc t' = t_pc (f i) -> t_pc (upd f i t' j) = t_pc (f j).
Proof. intros E. unfold upd. destruct (j =? i)%nat eqn:A; [apply Nat.eqb_eq in A; now subst j|reflexivity]. Qed.
(** the main thread goes from one place in the treatment of a task to another *)
Lemma inv_det s t' m cr i : Inv s -> (i < s_n s)%nat -> keeps (s_task s i) t' -> t_pc t' = t_pc (s_task s i) -> todo m = todo (s_main s) ->
  (idle_main (s_main s) = true -> idle_main m = true) -> (end_main (s_main s) = true -> end_main m = true) -> main_complete (s_task s) m ->
  Inv (mkS (s_n s) (upd (s_task s) i t') (s_map s) (s_unref s) (s_event s) (s_zombie s) m (s_log s) (s_dropped s) cr).
Proof.
  intros HI L K P T E1 E2 C. destruct (inv_todo s HI) as [T1 T2]. apply inv_change; auto; try (rewrite T; assumption).
  - now apply keeps_upd.
  - intros j M Q. rewrite pc_upd in Q by exact P. destruct (wake_same s HI j M Q) as [A|[A B]]; [now left|right]. rewrite T. auto.
  - apply main_complete_upd; [exact C|apply K].
  - intros U. destruct (inv_unref s HI U) as [A|[A|A]]; auto.
Qed.
Lemma inv_set_main s m : Inv s -> NoDup (todo m) -> incl (todo m) (s_map s) ->
  (forall j, In j (s_map s) -> t_pc (s_task s j) = WEnd -> s_event s = true \/ idle_main m = true /\ In j (todo m)) -> main_complete (s_task s) m ->
  (s_unref s <> [] -> s_event s = true \/ idle_main m = true \/ end_main m = true) -> Inv (set_main s m).
Proof. intros HI A B C D E. apply inv_change; auto. intros j L. now apply keeps_id. Qed.
Lemma main_inv s s' : Inv s -> main s = Some s' -> Inv s'.
Proof.
  intros HI H. destruct (inv_todo s HI) as [T1 T2]. pose proof (inv_lt s HI) as LT. rewrite Forall_forall in LT. pose proof (main_complete_same s HI) as MC.
  pose proof (wake_same s HI) as WS. pose proof (inv_unref s HI) as UN. unfold main in H.
  destruct (s_main s) as [|i|k l|i l|d k i l] eqn:E; cbn [todo idle_main end_main main_complete] in *.
  - discriminate.
  - injection H as <-. unfold set_main, set_task. cbn [s_n s_task s_map s_unref s_event s_zombie s_main s_log s_dropped s_crash].
    destruct (Nat.ltb_spec i (s_n s)) as [L|L].
    + apply inv_det; auto; rewrite ?E; cbn; auto. now apply keeps_handle.
    + apply inv_change; auto; cbn; auto.
      * intros j Lj. rewrite upd_other by lia. now apply keeps_id.
      * intros j M P. pose proof (LT j M). rewrite upd_other in P by lia. destruct (WS j M P) as [A|[A B]]; [now left|discriminate].
  - destruct l as [|i l].
    + destruct k as [|b|].
      * injection H as <-. destruct HI as [I1 I2 I3 I4 I5 I6 I7]. constructor; cbn [s_map s_n s_main s_unref s_event s_log s_dropped s_task todo].
        -- exact I1.
        -- exact I2.
        -- split; [constructor|]. intros x [].
        -- intros j L. destruct (I4 j L) as (A & B & C & D & F & G & Hh & J & K). unfold task_ok. cbn [s_map s_n s_main s_unref s_event s_log s_dropped s_task]. cbv zeta.
           split; [exact A|]. split; [exact B|]. split. { rewrite cnt_rev_app, cnt_freed. cbn. lia. } split; [exact D|]. split. { rewrite cnt_rev_app, cnt_ran. exact F. }
           split. { intros R. apply G. rewrite cnt_in in *. rewrite cnt_rev_app, cnt_ran in R. exact R. }
           split. { intros l1 l2. now apply log_order_freed. }
           split; [|exact Logic.I]. intros M P. destruct (J M P) as [V|[V W]]; [now left|]. rewrite E in W. destruct W.
        -- intros j L. destruct (I5 j L) as (A & B & C & D). rewrite !cnt_rev_app, cnt_freed, cnt_ran. cbn. rewrite A, B, C, D. auto.
        -- intros U. now contradiction U.
        -- exact I7.
      * injection H as <-. unfold set_main, set_event. cbn [s_n s_task s_map s_unref s_event s_zombie s_main s_log s_dropped s_crash].
        apply inv_change; auto.
        -- intros j Lj. now apply keeps_id.
        -- intros j M P. left. destruct (WS j M P) as [A|[A B]]; [|discriminate]. rewrite A. now rewrite orb_true_r.
        -- intros U. left. destruct (UN U) as [A|[A|A]]; [rewrite A; now rewrite orb_true_r|discriminate|rewrite A; reflexivity].
      * injection H as <-. apply inv_set_main; auto; cbn; auto.
    + assert (M : In i (s_map s)) by (apply T2; now left). assert (T2' : incl l (s_map s)) by (intros x Hx; apply T2; now right). inversion T1 as [|x y N1 N2]. subst x y.
      destruct k as [|b|]; injection H as <-.
      * destruct (t_complete (s_task s i)) eqn:C; apply inv_set_main; auto; cbn; auto.
        intros j Mj P. destruct (WS j Mj P) as [A|[A [B|B]]]; auto. subst j. destruct (inv_task s HI i (LT _ M)) as (A' & _). rewrite C, P in A'. discriminate.
      * destruct (t_ruc (s_task s i)) eqn:C; apply inv_set_main; auto; cbn; auto.
        -- intros j Mj P. destruct (WS j Mj P) as [A|[A B]]; [auto|discriminate].
      * apply inv_set_main; auto.
  - assert (M : In i (s_map s)) by (apply T2; now left). pose proof (LT _ M) as L. injection H as <-.
    destruct (t_run (s_task s i) && t_ref (s_task s i)) eqn:R.
    + apply andb_true_iff in R. destruct R as [R1 R2]. unfold set_main, set_task. cbn [s_n s_task s_map s_unref s_event s_zombie s_main s_log s_dropped s_crash].
      assert (HI2 : Inv (mkS (s_n s) (upd (s_task s) i (disable (s_task s i))) (s_map s) (s_unref s) (s_event s) (s_zombie s) (MDet DCancel KIdle i l) (s_log s) (s_dropped s) (s_crash s))).
      { apply inv_det; auto; rewrite ?E; cbn; auto. now apply keeps_disable. }
      destruct (inv_task s HI i L) as (A0 & B0 & C0 & D0 & F0 & G0 & H0 & J0 & K0). rewrite R2 in C0. cbn in C0.
      assert (NR : ~ In (Ran i) (s_log s)). { intros Q. destruct (G0 Q) as [G1 _]. rewrite R1 in G1. discriminate. }
      assert (NF : ~ In (Freed i) (s_log s)). { rewrite cnt_in. destruct (t_had (s_task s i)); cbn in C0; lia. }
      destruct HI2 as [I1 I2 I3 I4 I5 I6 I7]. constructor; cbn [s_map s_n s_main s_unref s_event s_log s_dropped s_task] in *; [exact I1|exact I2|exact I3| | |exact I6|exact I7].
      * intros j Lj. destruct (I4 j Lj) as (A & B & C & D & F & G & Hh & J & K). unfold task_ok in *. cbn [s_map s_n s_main s_unref s_event s_log s_dropped s_task] in *. cbv zeta.
        split; [exact A|]. split; [exact B|]. split. { rewrite cnt_cons_fr. exact C. } split; [exact D|].
        split. { rewrite cnt_cons_ran. destruct (i =? j)%nat eqn:Q; cbn; [|exact F]. apply Nat.eqb_eq in Q. subst j. rewrite cnt_in in NR. lia. }
        split. { intros [Q|Q]; [|now apply G]. injection Q as ->. rewrite upd_same. cbn. split; [reflexivity|exact MC]. }
        split. { intros [|y l1] l2 Q; injection Q; intros Q1 Q2; [subst l2 j; exact NF|]. now apply (Hh l1). }
        split; [exact J|exact K].
      * intros j Lj. destruct (I5 j Lj) as (A & B & C & D). rewrite cnt_cons_fr, cnt_cons_ran. destruct (i =? j)%nat eqn:Q; [lia|]. cbn. auto.
    + unfold set_main, set_task. cbn [s_n s_task s_map s_unref s_event s_zombie s_main s_log s_dropped s_crash].
      apply inv_det; auto; rewrite ?E; cbn; auto. now apply keeps_disable.
  - assert (M : In i (s_map s)) by (apply T2; now left). pose proof (LT _ M) as L.
    destruct d; cbn [main_complete] in MC.
    + injection H as <-. unfold set_main, set_task. cbn [s_n s_task s_map s_unref s_event s_zombie s_main s_log s_dropped s_crash].
      apply inv_det; auto; rewrite ?E; cbn; auto. now apply keeps_cancel.
    + injection H as <-. destruct (t_handle (s_task s i)); apply inv_set_main; auto.
    + unfold detach_handle in H. destruct (t_handle (s_task s i)) eqn:Hd; injection H as <-; unfold set_crash, set_main, set_task; cbn [s_n s_task s_map s_unref s_event s_zombie s_main s_log s_dropped s_crash];
        (apply inv_det; auto; rewrite ?E; cbn; auto); try (now apply keeps_handle); now apply keeps_id.
    + injection H as <-. unfold set_main, set_task. cbn [s_n s_task s_map s_unref s_event s_zombie s_main s_log s_dropped s_crash].
      apply inv_det; auto; rewrite ?E; cbn; auto. now apply keeps_handle.
    + injection H as <-. inversion T1 as [|x y N1 N2]. subst x y. destruct HI as [I1 I2 I3 I4 I5 I6 I7]. rewrite E in *.
      constructor; cbn [s_map s_n s_main s_unref s_event s_log s_dropped s_task todo].
      * now apply nodup_remove.
      * rewrite Forall_forall. intros j Hj. apply in_remove in Hj. now apply LT.
      * split; [exact N2|]. intros j Hj. apply in_remove. split; [apply T2; now right|]. intros ->. contradiction.
      * intros j Lj. destruct (I4 j Lj) as (A & B & C & D & F & G & Hh & J & K). unfold task_ok. cbn [s_map s_n s_main s_unref s_event s_log s_dropped s_task]. cbv zeta.
        destruct (Nat.eq_dec j i) as [Q|Q].
        -- subst j. rewrite upd_same. unfold take. cbn [t_complete t_pc t_run t_ref t_had].
           split; [exact A|]. split; [exact B|].
           split. { destruct (t_ref (s_task s i)); destruct k; rewrite ?cntn_app, ?cntn_cons, ?Nat.eqb_refl; cbn [b2n] in *; lia. }
           split; [discriminate|]. split; [exact F|]. split; [exact G|]. split; [exact Hh|]. split; [|exact Logic.I].
           intros Mi. apply in_remove in Mi. destruct Mi as [_ X]. now contradiction X.
        -- rewrite upd_other by exact Q. split; [exact A|]. split; [exact B|].
           split. { assert (X : (i =? j)%nat = false) by lia. destruct (t_ref (s_task s i)); destruct k; rewrite ?cntn_app, ?cntn_cons, ?X; cbn [b2n] in *; lia. }
           split. { intros R. apply in_remove. split; [now apply D|exact Q]. }
           split; [exact F|]. split; [exact G|]. split; [exact Hh|]. split; [|exact Logic.I].
           intros Mj P. apply in_remove in Mj. destruct (J (proj1 Mj) P) as [V|[V W]]; [now left|]. rewrite E in V, W. cbn in V, W. destruct k; try discriminate. right. split; [reflexivity|]. destruct W as [W|W]; [now contradiction Q|exact W].
      * intros j Lj. destruct (I5 j Lj) as (A & B & C & D). assert (X : (i =? j)%nat = false) by lia.
        destruct (t_ref (s_task s i)); destruct k; rewrite ?cntn_app, ?cntn_cons, ?X; cbn [b2n]; rewrite ?A, ?B, ?C, ?D; auto.
      * intros U. destruct k as [|b|]; cbn [idle_main end_main] in *; [now right; left| |now apply UN].
        destruct (t_ref (s_task s i)); [right; right; now rewrite orb_true_r|]. rewrite orb_false_r. now apply UN.
      * rewrite map_upd by reflexivity. now apply nodup_map_filter.
Qed.
Lemma has_key_in s key : has_key s key = false -> ~ In key (map (fun i => t_key (s_task s i)) (s_map s)).
Proof. unfold has_key. intros H Q. apply in_map_iff in Q. destruct Q as (i & A & B). assert (X : existsb (fun i => (t_key (s_task s i) =? key)%N) (s_map s) = true); [|rewrite X in H; discriminate]. apply existsb_exists. exists i. split; [exact B|]. rewrite A. apply N.eqb_refl. Qed.
Lemma step_inv l s s' : Inv s -> step l s = Some s' -> Inv s'.
Proof.
  intros HI H. destruct l as [i| |key cb ru| | |final|i]; cbn [step] in H.
  - destruct (Nat.ltb_spec i (s_n s)) as [L|L]; [|discriminate]. now apply (worker_inv s i).
  - now apply main_inv in H.
  - destruct (s_main s) eqn:E; try discriminate. destruct (s_zombie s || has_key s key) eqn:Z; [discriminate|]. apply orb_false_iff in Z. destruct Z as [_ Z]. injection H as <-.
    pose proof (inv_lt s HI) as LT. rewrite Forall_forall in LT. destruct HI as [I1 I2 I3 I4 I5 I6 I7].
    constructor; cbn [s_map s_n s_main s_unref s_event s_log s_dropped s_task todo].
    + constructor; [|exact I1]. intros Q. apply LT in Q. lia.
    + constructor; [lia|]. rewrite Forall_forall. intros j Hj. apply LT in Hj. lia.
    + split; [constructor|]. intros x [].
    + intros j Lj. unfold task_ok. cbn [s_map s_n s_main s_unref s_event s_log s_dropped s_task]. cbv zeta. destruct (Nat.eq_dec j (s_n s)) as [Q|Q].
      * subst j. rewrite upd_same. cbn [new_task t_complete t_pc t_run t_ref t_had past_complete past_cancel]. destruct (I5 (s_n s) (Nat.le_refl _)) as (A & B & C & D).
        split; [reflexivity|]. split; [reflexivity|]. split; [rewrite A, B, C; destruct cb; reflexivity|]. split; [intros _; now left|]. split; [lia|].
        split. { intros R. rewrite cnt_in in R. lia. } split. { intros l1 l2 R. exfalso. assert (X : In (Ran (s_n s)) (s_log s)) by (rewrite R; apply in_or_app; right; now left). rewrite cnt_in in X. lia. }
        split; [discriminate|exact Logic.I].
      * rewrite upd_other by exact Q. destruct (I4 j) as (A & B & C & D & F & G & Hh & J & K); [lia|].
        split; [exact A|]. split; [exact B|]. split; [exact C|]. split; [intros R; right; now apply D|]. split; [exact F|]. split; [exact G|]. split; [exact Hh|]. split; [|exact Logic.I].
        intros [M|M] P; [now contradiction Q|]. destruct (J M P) as [V|[V W]]; [now left|]. rewrite E in V. discriminate.
    + intros j Lj. apply I5. lia.
    + intros U. destruct (I6 U) as [A|[A|A]]; [now left| |]; rewrite E in A; discriminate.
    + cbn [map]. rewrite upd_same. cbn [new_task t_key].
      assert (X : map (fun i => t_key (upd (s_task s) (s_n s) (new_task key cb ru) i)) (s_map s) = map (fun i => t_key (s_task s i)) (s_map s)).
      { apply map_ext_in. intros j Hj. apply LT in Hj. now rewrite upd_other by lia. }
      rewrite X. constructor; [now apply has_key_in|exact I7].
  - destruct (s_main s) eqn:E; try discriminate. destruct (s_event s) eqn:V; [|discriminate]. injection H as <-. unfold set_main, set_event. cbn [s_n s_task s_map s_unref s_event s_zombie s_main s_log s_dropped s_crash].
    apply inv_change; [exact HI|intros j L; now apply keeps_id|apply inv_map; exact HI|intros x Hx; exact Hx| |exact Logic.I|].
    + intros j M P. right. split; [reflexivity|exact M].
    + intros _. right. now left.
  - destruct (s_main s) eqn:E; try discriminate. injection H as <-.
    apply inv_change; [exact HI|intros j L; now apply keeps_id|apply inv_map; exact HI|intros x Hx; exact Hx| |exact Logic.I|].
    + intros j M P. destruct (wake_same s HI j M P) as [A|[A B]]; [auto|]. rewrite E in A. discriminate.
    + intros U. destruct (inv_unref s HI U) as [A|[A|A]]; [auto| |]; rewrite E in A; discriminate.
  - destruct (s_main s) eqn:E; try discriminate. destruct (s_zombie s); [discriminate|]. injection H as <-.
    apply inv_change; [exact HI|intros j L; now apply keeps_id|apply inv_map; exact HI|intros x Hx; exact Hx| |exact Logic.I|].
    + intros j M P. destruct (wake_same s HI j M P) as [A|[A B]]; [auto|]. rewrite E in A. discriminate.
    + intros U. destruct (inv_unref s HI U) as [A|[A|A]]; [auto| |]; rewrite E in A; discriminate.
  - destruct (s_main s) eqn:E; try discriminate. destruct (Nat.ltb_spec i (s_n s)) as [L|L]; cbn in H; [|discriminate]. destruct (t_complete (s_task s i)); [|discriminate]. injection H as <-.
    unfold set_task. apply inv_det; auto. now apply keeps_disable. now apply main_complete_same.
Qed.
Lemma initial_inv : Inv initial.
Proof.
  constructor; cbn.
  - constructor.
  - constructor.
  - split; [constructor|intros x []].
  - intros i L. lia.
  - intros i _. auto.
  - intros U. now contradiction U.
  - constructor.
Qed.
Lemma run_inv ls : forall s s', Inv s -> run ls s = Some s' -> Inv s'.
Proof. induction ls as [|l ls IH]; cbn; intros s s' HI H; [injection H as <-; exact HI|]. destruct (step l s) as [s1|] eqn:E; [|discriminate]. apply (IH s1); [|exact H]. now apply (step_inv l s). Qed.
