(** Deadlock freedom of lock programs that respect the order master < session lines < session removals. *)
From Verif Require Import Base HistLocksModel.

Definition rank (l : lock) : nat := match l with LM => 0 | LS _ => 1 | LR _ => 2 end.

Lemma lock_eqb_eq a b : lock_eqb a b = true <-> a = b.
Proof.
  destruct a, b; cbn; split; intro H; try discriminate; auto; try (apply Nat.eqb_eq in H; congruence);
    injection H as ->; apply Nat.eqb_refl.
Qed.

(** [ok hs p]: from held locks [hs] the program acquires only locks above the held ones, releases only held ones,
    and ends with none. *)
Fixpoint ok (hs : list (lock * mode)) (p : list instr) : Prop :=
  match p with
  | [] => hs = []
  | Acq l m :: p' => Forall (fun h => rank (fst h) < rank l) hs /\ ok ((l, m) :: hs) p'
  | Rel l :: p' => (exists m, In (l, m) hs) /\ ok (drop l hs) p'
  end.

(** Programs that run from [hs] back to [hs]. *)
Definition balanced (r : nat) (p : list instr) : Prop :=
  forall hs k, Forall (fun h => rank (fst h) < r) hs -> ok hs k -> ok hs (p ++ k).

Lemma balanced_nil r : balanced r [].
Proof. intros hs k _ H. exact H. Qed.

Lemma balanced_app r p q : balanced r p -> balanced r q -> balanced r (p ++ q).
Proof. intros Hp Hq hs k Hr H. rewrite <- app_assoc. apply Hp; auto. Qed.

Lemma balanced_flat {A} r (f : A -> list instr) xs : (forall x, balanced r (f x)) -> balanced r (flat_map f xs).
Proof. intro H. induction xs as [|x xs IH]; cbn [flat_map]; auto using balanced_nil, balanced_app. Qed.

Lemma balanced_le r r' p : r' <= r -> balanced r p -> balanced r' p.
Proof. intros Hr H hs k Hh Hk. apply H; auto. eapply Forall_impl; [|exact Hh]. cbn. intros; lia. Qed.

Lemma drop_head l m hs : drop l ((l, m) :: hs) = hs.
Proof. cbn [drop fst]. replace (lock_eqb l l) with true; auto. symmetry. apply lock_eqb_eq. reflexivity. Qed.

Lemma balanced_lock lines m body : balanced (S (rank lines)) body -> balanced (rank lines) (bank_lock lines None m body).
Proof.
  intros Hb hs k Hr Hk. unfold bank_lock. cbn [app ok]. split; auto. rewrite <- app_assoc. apply Hb.
  - apply Forall_cons; [cbn; lia|]. eapply Forall_impl; [|exact Hr]. cbn. intros; lia.
  - cbn [app ok]. split; [exists m; left; reflexivity|]. rewrite drop_head. exact Hk.
Qed.

Lemma balanced_lock2 lines rl m body : rank lines < rank rl -> balanced (S (rank rl)) body ->
  balanced (rank lines) (bank_lock lines (Some rl) m body).
Proof.
  intros Hl Hb. replace (bank_lock lines (Some rl) m body) with (bank_lock lines None m (bank_lock rl None m body)).
  - apply balanced_lock. apply (balanced_le (rank rl)); [lia|]. apply balanced_lock. exact Hb.
  - unfold bank_lock. cbn [app]. rewrite <- app_assoc. reflexivity.
Qed.

Lemma balanced_op h o : balanced 0 (op_prog h o).
Proof.
  assert (Hm : forall r m, balanced 0 (bank_lock LM (if r : bool then Some (LR (h_id h)) else None) m [])).
  { intros [] m; [apply (balanced_lock2 LM)|apply (balanced_lock LM)]; cbn; try lia; apply balanced_nil. }
  assert (H0 : forall m, balanced 0 (bank_lock LM None m [])) by (intro m; apply (balanced_lock LM), balanced_nil).
  assert (Hs : forall j m, balanced 1 (bank_lock (LS j) None m [])) by (intros j m; apply (balanced_lock (LS j)), balanced_nil).
  assert (Hs2 : forall j r, balanced 1 (bank_lock (LS j) (if r : bool then Some (LR j) else None) Sh [])).
  { intros j []; [apply (balanced_lock2 (LS j))|auto]; cbn; try lia; apply balanced_nil. }
  assert (He : forall m f, balanced 0 (each_bank h m f)).
  { intros m f. unfold each_bank. apply balanced_app; [apply Hm|]. destruct f; [apply balanced_nil|].
    destruct (h_lines h); [|apply balanced_nil]. apply (balanced_le 1); [lia|apply Hs]. }
  destruct o as [inj|js| | |f| |mst| |js]; cbn [op_prog]; auto.
  - apply balanced_app; auto. destruct inj; auto using balanced_nil.
  - apply balanced_flat. intros [j r]. unfold reap_one. apply (balanced_lock LM). apply Hs2.
  - destruct mst; [apply Hm|]. destruct (h_lines h); [|apply balanced_nil]. apply (balanced_le 1); [lia|apply Hs].
  - destruct (h_lines h); [|apply Hm]. apply (balanced_le 1); [lia|apply Hs].
  - apply (balanced_lock LM). apply balanced_flat. intro j. apply (Hs2 j true).
Qed.

Lemma start_ok h ops : ok [] (todo (start h ops)).
Proof.
  cbn [start todo]. assert (H : balanced 0 (flat_map (op_prog h) ops)) by (apply balanced_flat; apply balanced_op).
  rewrite <- (app_nil_r (flat_map _ _)). apply H; [apply Forall_nil|reflexivity].
Qed.

(** ** Invariant *)

Definition pok (p : pst) : Prop := ok (held p) (todo p).

(** An exclusive lock excludes every other holder. *)
Definition excl (a b : list (lock * mode)) : Prop :=
  forall l m m', In (l, m) a -> In (l, m') b -> m = Sh /\ m' = Sh.
Definition safe (ps : list pst) : Prop :=
  Forall pok ps /\
  forall i j p q, i <> j -> nth_error ps i = Some p -> nth_error ps j = Some q -> excl (held p) (held q).

Lemma in_drop l hs x : In x (drop l hs) -> In x hs.
Proof.
  induction hs as [|h hs IH]; cbn [drop]; auto. destruct (lock_eqb (fst h) l); [right; auto|]. intros [->|H]; [left|right]; auto.
Qed.

Lemma nth_set_p ps : forall i p j, i < length ps -> nth_error (set_p ps i p) j = if Nat.eqb j i then Some p else nth_error ps j.
Proof.
  induction ps as [|q ps IH]; intros [|i] p j Hi; cbn [length] in Hi; try lia; destruct j as [|j]; cbn [set_p nth_error Nat.eqb]; auto.
  apply IH. lia.
Qed.

Lemma nth_lt {A} (ps : list A) i p : nth_error ps i = Some p -> i < length ps.
Proof. intro H. apply nth_error_Some. congruence. Qed.

Lemma free_spec ps l m : free ps l m = true -> forall j q m', nth_error ps j = Some q -> In (l, m') (held q) -> m = Sh /\ m' = Sh.
Proof.
  intros H j q m' Eq Hin. unfold free in H. rewrite forallb_forall in H. specialize (H q (nth_error_In _ _ Eq)).
  rewrite forallb_forall in H. specialize (H _ Hin). unfold compatible in H. cbn [fst snd] in H.
  replace (lock_eqb l l) with true in H by (symmetry; apply lock_eqb_eq; reflexivity). cbn [negb orb] in H.
  destruct m, m'; auto; discriminate.
Qed.

Lemma not_free ps l m : free ps l m = false -> exists j q m', nth_error ps j = Some q /\ In (l, m') (held q).
Proof.
  intro H. unfold free in H.
  assert (Hx : exists q, In q ps /\ forallb (compatible m l) (held q) = false).
  { clear - H. induction ps as [|q ps IH]; [discriminate|]. cbn [forallb] in H. destruct (forallb (compatible m l) (held q)) eqn:E.
    - destruct (IH H) as (x & Hx & Ex). exists x. split; [right|]; auto.
    - exists q. split; [left|]; auto. }
  destruct Hx as (q & Hq & E). apply In_nth_error in Hq as [j Ej].
  assert (Hy : exists h, In h (held q) /\ compatible m l h = false).
  { clear - E. induction (held q) as [|h hs IH]; [discriminate|]. cbn [forallb] in E. destruct (compatible m l h) eqn:Ec.
    - destruct (IH E) as (x & Hx & Ex). exists x. split; [right|]; auto.
    - exists h. split; [left|]; auto. }
  destruct Hy as ([l' m'] & Hin & Ec). unfold compatible in Ec. cbn [fst snd] in Ec. apply orb_false_iff in Ec as [Ec _].
  apply negb_false_iff in Ec. apply lock_eqb_eq in Ec. subst l'. exists j, q, m'. auto.
Qed.

Lemma safe_step ps i ps' : safe ps -> pstep ps i = Some ps' -> safe ps'.
Proof.
  intros (Hok & Hex) E. unfold pstep in E. destruct (nth_error ps i) as [p|] eqn:Ei; [|discriminate].
  pose proof (nth_lt _ _ _ Ei) as Hi.
  assert (Hp : pok p) by (rewrite Forall_forall in Hok; apply Hok; eapply nth_error_In; eauto).
  assert (Key : forall p', pok p' -> (forall j q, j <> i -> nth_error ps j = Some q -> excl (held p') (held q)) -> safe (set_p ps i p')).
  { intros p' Hp' Hq. split.
    - apply Forall_forall. intros x Hx. apply In_nth_error in Hx as [j Ej]. rewrite nth_set_p in Ej by exact Hi.
      destruct (Nat.eqb j i); [injection Ej as <-; exact Hp'|]. rewrite Forall_forall in Hok. apply Hok. eapply nth_error_In; eauto.
    - intros j k a b Hne Ea Eb. rewrite nth_set_p in Ea, Eb by exact Hi.
      destruct (Nat.eqb j i) eqn:E1, (Nat.eqb k i) eqn:E2.
      + apply Nat.eqb_eq in E1, E2. congruence.
      + injection Ea as <-. apply Nat.eqb_neq in E2. eapply Hq; eauto.
      + injection Eb as <-. apply Nat.eqb_neq in E1. intros l m m' A B. destruct (Hq j a E1 Ea l m' m B A). auto.
      + eapply Hex; eauto. }
  destruct p as [hs td]. unfold pok in Hp. cbn [held todo] in *. destruct td as [|[l m|l] rest]; [discriminate| |].
  - destruct (free ps l m) eqn:Ef; [|discriminate]. injection E as <-. cbn [ok] in Hp. destruct Hp as [_ Hp].
    apply Key; [exact Hp|]. intros j q Hne Eq l0 m0 m' [A|A] B.
    + injection A as <- <-. eapply free_spec; eauto.
    + apply (Hex i j _ _ (not_eq_sym Hne) Ei Eq l0 m0 m' A B).
  - injection E as <-. cbn [ok] in Hp. destruct Hp as [_ Hp]. apply Key; [exact Hp|].
    intros j q Hne Eq l0 m0 m' A B. apply in_drop in A. apply (Hex i j _ _ (not_eq_sym Hne) Ei Eq l0 m0 m' A B).
Qed.

(** ** Progress *)

Lemma blocked_above ps n : Forall pok ps -> (forall i, pstep ps i = None) ->
  forall l j q m, 3 - rank l <= n -> nth_error ps j = Some q -> In (l, m) (held q) -> False.
Proof.
  intros Hok Hb. induction n as [|n IH]; intros l j q m Hn Eq Hin.
  - destruct l; cbn in Hn; lia.
  - pose proof (Hb j) as Hj. unfold pstep in Hj. rewrite Eq in Hj.
    assert (Hp : pok q) by (rewrite Forall_forall in Hok; apply Hok; eapply nth_error_In; eauto).
    unfold pok in Hp. destruct (todo q) as [|[l' m'|l'] rest].
    + cbn [ok] in Hp. rewrite Hp in Hin. destruct Hin.
    + destruct (free ps l' m') eqn:Ef; [discriminate|]. apply not_free in Ef as (k & x & m'' & Ek & Hx).
      cbn [ok] in Hp. destruct Hp as [Hr _]. rewrite Forall_forall in Hr. specialize (Hr _ Hin). cbn [fst] in Hr.
      apply (IH l' k x m''); auto. lia.
    + discriminate.
Qed.

Lemma progress ps : Forall pok ps -> (forall i, pstep ps i = None) -> Forall (fun p => todo p = [] /\ held p = []) ps.
Proof.
  intros Hok Hb. apply Forall_forall. intros p Hin. apply In_nth_error in Hin as [i Ei].
  assert (Hp : pok p) by (rewrite Forall_forall in Hok; apply Hok; eapply nth_error_In; eauto).
  pose proof (Hb i) as Hi. unfold pstep in Hi. rewrite Ei in Hi. unfold pok in Hp.
  destruct (todo p) as [|[l m|l] rest]; [split; auto| |discriminate].
  destruct (free ps l m) eqn:Ef; [discriminate|]. apply not_free in Ef as (j & q & m' & Ej & Hq).
  exfalso. eapply (blocked_above ps 3); eauto. destruct l; cbn; lia.
Qed.

Definition left_over (ps : list pst) : nat := list_sum (map (fun p => length (todo p)) ps).

Lemma left_over_set ps : forall i p p', nth_error ps i = Some p -> length (todo p) = S (length (todo p')) ->
  left_over ps = S (left_over (set_p ps i p')).
Proof.
  induction ps as [|q ps IH]; intros [|i] p p' E Hl; try discriminate; cbn [nth_error set_p] in *; unfold left_over in *; cbn [map list_sum fold_right] in *.
  - injection E as ->. unfold list_sum in *. lia.
  - specialize (IH i p p' E Hl). unfold list_sum in *. lia.
Qed.

Lemma pstep_less ps i ps' : pstep ps i = Some ps' -> left_over ps = S (left_over ps').
Proof.
  unfold pstep. destruct (nth_error ps i) as [p|] eqn:Ei; [|discriminate]. destruct (todo p) as [|[l m|l] rest] eqn:Et; [discriminate| |].
  - destruct (free ps l m); [|discriminate]. intro E. injection E as <-. eapply left_over_set; eauto. rewrite Et. reflexivity.
  - intro E. injection E as <-. eapply left_over_set; eauto. rewrite Et. reflexivity.
Qed.

Lemma safe_start hs : safe (map (fun h => start (fst h) (snd h)) hs).
Proof.
  split.
  - apply Forall_forall. intros p Hp. apply in_map_iff in Hp as ([h ops] & <- & _). apply start_ok.
  - intros i j p q _ Ep _. apply nth_error_In in Ep. apply in_map_iff in Ep as ([h ops] & <- & _). intros l m m' [].
Qed.

Lemma safe_schedule is : forall ps, safe ps -> safe (schedule ps is).
Proof.
  induction is as [|i is IH]; intros ps H; cbn [schedule fold_left]; auto. apply IH.
  destruct (pstep ps i) eqn:E; auto. eapply safe_step; eauto.
Qed.

(** Completion: from any safe state some schedule finishes everything, and any [left_over] effective steps do. *)
Lemma can_finish n : forall ps, left_over ps <= n -> safe ps ->
  exists is, Forall (fun p => todo p = [] /\ held p = []) (schedule ps is).
Proof.
  induction n as [|n IH]; intros ps Hn Hs.
  - exists []. cbn [schedule fold_left]. apply progress; [apply Hs|]. intro i. destruct (pstep ps i) eqn:E; auto.
    apply pstep_less in E. lia.
  - destruct (forallb (fun i => match pstep ps i with None => true | _ => false end) (seq 0 (length ps))) eqn:E.
    + exists []. cbn [schedule fold_left]. apply progress; [apply Hs|]. intro i. destruct (pstep ps i) eqn:Ei; auto.
      exfalso. rewrite forallb_forall in E. assert (Hi : In i (seq 0 (length ps))).
      { apply in_seq. unfold pstep in Ei. destruct (nth_error ps i) eqn:En; [|discriminate]. pose proof (nth_lt _ _ _ En). lia. }
      specialize (E i Hi). rewrite Ei in E. discriminate.
    + assert (Hx : exists i ps', pstep ps i = Some ps').
      { clear - E. induction (seq 0 (length ps)) as [|i is IH]; [discriminate|]. cbn [forallb] in E.
        destruct (pstep ps i) as [x|] eqn:Ei; [exists i, x; exact Ei|]. apply IH. exact E. }
      destruct Hx as (i & ps' & Ei). destruct (IH ps') as [is His].
      * apply pstep_less in Ei. lia.
      * eapply safe_step; eauto.
      * exists (i :: is). cbn [schedule fold_left]. rewrite Ei. exact His.
Qed.
