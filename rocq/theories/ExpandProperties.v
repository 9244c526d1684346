(** C54: history expansion in quotes. *)
From Verif Require Import Base ExpandModel.
Open Scope N_scope.

Definition is_quote (c : N) : bool := (c =? 39) || (c =? 34).
(** ** Specification: the quoted region that the end of a text lies in.
    [inside t q]: after [t] we are within a region opened by [q]; [outside t]: within none.  Within a region only its own
    quote ends it. *)
Inductive outside : list N -> Prop :=
| out_nil : outside []
| out_char t c : outside t -> is_quote c = false -> outside (t ++ [c])
| out_close t q : inside t q -> outside (t ++ [q])
with inside : list N -> N -> Prop :=
| in_open t q : outside t -> is_quote q = true -> inside (t ++ [q]) q
| in_char t q c : inside t q -> c <> q -> inside (t ++ [c]) q.
(** the kinds of quotes that a mode selects *)
Definition selects (mode : Z) (q : N) : Prop := mode = 2%Z /\ q = 39 \/ mode = 3%Z /\ q = 34 \/ mode = 4%Z /\ (q = 39 \/ q = 34).
Definition inhibited (mode : Z) (t : list N) : Prop := exists q, inside t q /\ selects mode q.
(** no region holds a quote of the other kind *)
Inductive tame : list N -> Prop :=
| tame_nil : tame []
| tame_out t c : tame t -> outside t -> tame (t ++ [c])
| tame_in t q c : tame t -> inside t q -> (is_quote c = true -> c = q) -> tame (t ++ [c]).

(** one character *)
Definition qstep (q c : N) : N := if is_quote c then if c =? q then 0 else c else q.
Lemma scan_fold line : forall i pos q, quote_scan line i pos q = fold_left qstep (firstn (pos - i) line) q.
Proof.
  induction line as [|c line IH]; intros i pos q; cbn [quote_scan]; destruct (i <? pos)%nat eqn:E.
  - rewrite firstn_nil. reflexivity.
  - rewrite firstn_nil. reflexivity.
  - replace (pos - i)%nat with (S (pos - S i)) by lia. cbn [firstn fold_left]. rewrite IH. reflexivity.
  - replace (pos - i)%nat with O by lia. reflexivity.
Qed.
Lemma fold_snoc t c q : fold_left qstep (t ++ [c]) q = qstep (fold_left qstep t q) c.
Proof. rewrite fold_left_app. reflexivity. Qed.
Lemma snoc_inj (a b : list N) x y : a ++ [x] = b ++ [y] -> a = b /\ x = y.
Proof. apply app_inj_tail. Qed.
(** the specification determines the region *)
Definition region_fold (t : list N) : N := fold_left (fun q c => if q =? 0 then if is_quote c then c else 0 else if c =? q then 0 else q) t 0.
Lemma inside_quote t q : inside t q -> is_quote q = true.
Proof. induction 1; assumption. Qed.
Lemma region_ok t : (outside t /\ region_fold t = 0) \/ (exists q, inside t q /\ region_fold t = q).
Proof.
  induction t as [|c t IH] using rev_ind; [left; split; [constructor|reflexivity]|].
  unfold region_fold in *. rewrite fold_left_app. cbn [fold_left]. destruct IH as [[O E]|(q & I & E)].
  - rewrite E. cbn [N.eqb]. destruct (is_quote c) eqn:Q; [right; exists c; split; [constructor; assumption|reflexivity]|left; split; [constructor; assumption|reflexivity]].
  - rewrite E. pose proof (inside_quote _ _ I) as Q. replace (q =? 0) with false by (unfold is_quote in Q; lia). destruct (c =? q) eqn:Ec.
    + left. apply N.eqb_eq in Ec. subst c. split; [constructor; assumption|reflexivity].
    + right. exists q. split; [constructor; [assumption|lia]|reflexivity].
Qed.
Lemma region_det t : (outside t -> region_fold t = 0) /\ (forall q, inside t q -> region_fold t = q).
Proof.
  induction t as [|c t IH] using rev_ind.
  - split; [reflexivity|]. intros q I. inversion I as [x y H1 H2 H3|x y z H1 H2 H3]; destruct x; discriminate.
  - destruct IH as [IO II]. unfold region_fold in *. rewrite fold_left_app. cbn [fold_left]. split.
    + intro O. inversion O as [E|x y Ho Hq E|x y Hi E]; [destruct t; discriminate| |]; apply app_inj_tail in E as [-> ->].
      * rewrite (IO Ho), Hq. reflexivity.
      * rewrite (II _ Hi). pose proof (inside_quote _ _ Hi) as Q. replace (c =? 0) with false by (unfold is_quote in Q; lia). rewrite N.eqb_refl. reflexivity.
    + intros q I. inversion I as [x y Ho Hq E E2|x y z Hi Hn E E2]; apply app_inj_tail in E as [-> E]; subst.
      * rewrite (IO Ho), Hq. reflexivity.
      * rewrite (II _ Hi). pose proof (inside_quote _ _ Hi) as Q. replace (q =? 0) with false by (unfold is_quote in Q; lia). replace (c =? q) with false by lia. reflexivity.
Qed.
Lemma tame_fold t : tame t -> fold_left qstep t 0 = region_fold t.
Proof.
  induction 1 as [|t c T IH O|t q c T IH I Hc]; [reflexivity| |]; rewrite fold_snoc, IH; unfold region_fold at 2; rewrite fold_left_app; cbn [fold_left]; fold (region_fold t).
  - rewrite (proj1 (region_det t) O). unfold qstep. cbn [N.eqb]. destruct (is_quote c) eqn:Q; [|reflexivity]. replace (c =? 0) with false by (unfold is_quote in Q; lia). reflexivity.
  - rewrite (proj2 (region_det t) q I). pose proof (inside_quote _ _ I) as Q. unfold qstep. replace (q =? 0) with false by (unfold is_quote in Q; lia). destruct (is_quote c) eqn:Qc.
    + rewrite (Hc eq_refl), N.eqb_refl. reflexivity.
    + destruct (c =? q) eqn:E; [|reflexivity]. apply N.eqb_eq in E. subst c. congruence.
Qed.

(** When no quoted region before the position holds a quote of the other kind: expansion is inhibited exactly in regions
    of the selected kinds; with mode 1 ("on") never. *)
Theorem c54_tame mode line pos : (1 <= mode <= 4)%Z -> tame (firstn pos line) ->
  exists b, expand_control mode line pos = Some b /\ (b = true <-> inhibited mode (firstn pos line)).
Proof.
  intros Hm T. unfold expand_control. destruct (mode <=? 1)%Z eqn:E1.
  - assert (mode = 1%Z) as -> by lia. exists false. split; [reflexivity|]. split; [discriminate|]. intros (q & _ & S). unfold selects in S. lia.
  - eexists. split; [reflexivity|]. rewrite scan_fold, Nat.sub_0_r, (tame_fold _ T). set (t := firstn pos line) in *. destruct (region_det t) as [DO DI].
    assert (X : (if (mode =? 2)%Z then region_fold t =? 39 else if (mode =? 3)%Z then region_fold t =? 34 else if (mode =? 4)%Z then (region_fold t =? 34) || (region_fold t =? 39) else false) = true <-> selects mode (region_fold t)).
    { unfold selects. destruct (mode =? 2)%Z eqn:E2; [lia|]. destruct (mode =? 3)%Z eqn:E3; [lia|]. destruct (mode =? 4)%Z eqn:E4; lia. }
    rewrite X. split.
    + intro S. destruct (region_ok t) as [[_ E]|(q & I & E)]; [rewrite E in S; unfold selects in S; lia|]. exists q. split; [exact I|]. rewrite <- E. exact S.
    + intros (q & I & S). rewrite (DI _ I). exact S.
Qed.
Print Assumptions c54_tame.

(** ** In general: the last run of equal quotes decides.
    [quotes t]: the quotes of the text; [run c l]: how many [c] the list ends with. *)
Definition quotes (t : list N) : list N := filter is_quote t.
Fixpoint lead (c : N) (l : list N) : nat := match l with x :: l => if x =? c then S (lead c l) else O | [] => O end.
Definition run (c : N) (l : list N) : nat := lead c (rev l).
Lemma fold_quotes t : forall q, fold_left qstep t q = fold_left qstep (quotes t) q.
Proof. induction t as [|c t IH]; intro q; [reflexivity|]. cbn [fold_left quotes filter]. destruct (is_quote c) eqn:Q; [cbn [fold_left]; apply IH|]. replace (qstep q c) with q by (unfold qstep; rewrite Q; reflexivity). apply IH. Qed.
Lemma run_snoc c l x : run c (l ++ [x]) = if x =? c then S (run c l) else O.
Proof. unfold run. rewrite rev_app_distr. reflexivity. Qed.
Lemma fold_run l : Forall (fun c => is_quote c = true) l -> forall c, is_quote c = true -> (fold_left qstep l 0 =? c) = Nat.odd (run c l).
Proof.
  induction l as [|x l IH] using rev_ind; intros F c Hc.
  - cbn. unfold is_quote in Hc. destruct c; [discriminate|reflexivity].
  - apply Forall_app in F as [F Fx]. apply Forall_inv in Fx. rewrite fold_snoc, run_snoc. specialize (IH F). set (f := fold_left qstep l 0) in *. unfold qstep. rewrite Fx. rewrite (N.eqb_sym x f), (IH x Fx). destruct (x =? c) eqn:E.
    + apply N.eqb_eq in E. subst x. rewrite Nat.odd_succ, <- Nat.negb_odd. destruct (Nat.odd (run c l)); [unfold is_quote in Hc; destruct c; [discriminate|reflexivity]|apply N.eqb_refl].
    + destruct (Nat.odd (run x l)); [unfold is_quote in Hc; destruct c; [discriminate|reflexivity]|exact E].
Qed.
(** Expansion is inhibited exactly if the quotes before the position end with an odd number of quotes of a selected kind. *)
Theorem c54_runs mode line pos : (1 <= mode <= 4)%Z ->
  exists b, expand_control mode line pos = Some b /\ (b = true <-> exists q, selects mode q /\ Nat.Odd (run q (quotes (firstn pos line)))).
Proof.
  intro Hm. unfold expand_control. destruct (mode <=? 1)%Z eqn:E1.
  - assert (mode = 1%Z) as -> by lia. exists false. split; [reflexivity|]. split; [discriminate|]. intros (q & S & _). unfold selects in S. lia.
  - eexists. split; [reflexivity|]. rewrite scan_fold, Nat.sub_0_r, fold_quotes. set (l := quotes (firstn pos line)).
    assert (F : Forall (fun c => is_quote c = true) l) by (apply Forall_forall; intros x Hx; apply filter_In in Hx; exact (proj2 Hx)).
    pose proof (fold_run l F 39 eq_refl) as A. pose proof (fold_run l F 34 eq_refl) as B. rewrite A, B. unfold selects. split.
    + intro H. destruct (mode =? 2)%Z eqn:E2; [exists 39; split; [lia|apply Nat.odd_spec; exact H]|]. destruct (mode =? 3)%Z eqn:E3; [exists 34; split; [lia|apply Nat.odd_spec; exact H]|]. destruct (mode =? 4)%Z eqn:E4; [|discriminate].
      apply orb_true_iff in H as [H|H]; [exists 34|exists 39]; (split; [lia|apply Nat.odd_spec; exact H]).
    + intros (q & S & O). apply Nat.odd_spec in O. destruct (mode =? 2)%Z eqn:E2; [assert (q = 39) by lia; subst q; exact O|]. destruct (mode =? 3)%Z eqn:E3; [assert (q = 34) by lia; subst q; exact O|]. destruct (mode =? 4)%Z eqn:E4; [|lia].
      assert (Hq : q = 39 \/ q = 34) by lia. destruct Hq as [-> | ->]; rewrite O; [apply orb_true_r|reflexivity].
Qed.
Print Assumptions c54_runs.

(** echo "!x" '!y' ! *)
Definition ex_line : list N := [101; 32; 34; 33; 120; 34; 32; 39; 33; 39; 33].
Lemma outside_plain t : Forall (fun c => is_quote c = false) t -> outside t /\ tame t.
Proof. induction t as [|c t IH] using rev_ind; intro F; [split; constructor|]. apply Forall_app in F as [F Fc]. destruct (IH F) as [O T]. split; [constructor; [exact O|exact (Forall_inv Fc)]|constructor; assumption]. Qed.
Example c54_ex_tame : tame (firstn 8 ex_line) /\ inhibited 2 (firstn 8 ex_line) /\ ~ inhibited 3 (firstn 8 ex_line).
Proof.
  destruct (outside_plain [101; 32] ltac:(repeat constructor)) as [O T].
  pose proof (in_open _ 34 O eq_refl) as I1. pose proof (tame_out _ 34 T O) as T1. cbn [app] in *.
  pose proof (in_char _ 34 33 I1 ltac:(lia)) as I2. pose proof (tame_in _ 34 33 T1 I1 ltac:(discriminate)) as T2. cbn [app] in *.
  pose proof (in_char _ 34 120 I2 ltac:(lia)) as I3. pose proof (tame_in _ 34 120 T2 I2 ltac:(discriminate)) as T3. cbn [app] in *.
  pose proof (out_close _ 34 I3) as O4. pose proof (tame_in _ 34 34 T3 I3 ltac:(reflexivity)) as T4. cbn [app] in *.
  pose proof (out_char _ 32 O4 eq_refl) as O5. pose proof (tame_out _ 32 T4 O4) as T5. cbn [app] in *.
  pose proof (in_open _ 39 O5 eq_refl) as I6. pose proof (tame_out _ 39 T5 O5) as T6. cbn [app] in *.
  split; [exact T6|]. split; [exists 39; split; [exact I6|unfold selects; lia]|]. intros (q & I & S). apply (proj2 (region_det _)) in I. vm_compute in I. subst q. unfold selects in S. lia.
Qed.
Example c54_ex : expand_control 2 ex_line 3 = Some false /\ expand_control 3 ex_line 3 = Some true /\ expand_control 4 ex_line 8 = Some true /\ expand_control 4 ex_line 10 = Some false /\ expand_control 1 ex_line 3 = Some false.
Proof. vm_compute. auto. Qed.

(** ** What does not hold: the same for any line.  In ["it's !x"], mode 3, the apostrophe ends the double quotes. *)
Definition c54_any : Prop := forall mode line pos, (1 <= mode <= 4)%Z -> exists b, expand_control mode line pos = Some b /\ (b = true <-> inhibited mode (firstn pos line)).
Theorem c54_any_refuted : ~ c54_any.
Proof.
  intro H. destruct (H 3%Z [34; 39; 33; 34] 2%nat ltac:(lia)) as (b & E & Hb). vm_compute in E. injection E as <-. assert (X : inhibited 3 (firstn 2 [34; 39; 33; 34])).
  { exists 34. split; [|unfold selects; lia]. apply (in_char [34] 34 39); [|lia]. apply (in_open [] 34); [constructor|reflexivity]. }
  apply Hb in X. discriminate.
Qed.
Print Assumptions c54_any_refuted.
