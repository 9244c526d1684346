(** Reading files that are not well formed: lines longer than the buffer, a last line without line break. *)
From Verif Require Import Base HistLines HistFileModel HistSpec HistFileProofs.

Section Any.
Variable f : bytes.
Variable cap : nat.
Hypothesis Hcap : 0 < cap.

Definition meas (it : line_iter) : nat := 2 * fi_rem (li_fi it) + li_rem it.

Definition step_any_spec (it : line_iter) (o : li_out) : Prop :=
  match o with
  | LDone _ => True
  | LCont it' _ => LInv f cap it' /\ meas it' < meas it /\ lpos it <= lpos it'
  | LLine it' off text _ => LInv f cap it' /\ meas it' < meas it /\ lpos it <= off /\ off + length text <= lpos it' /\
      text <> [] /\ no_brk text = true /\ firstn (length text) (skipn off f) = text
  end.

Lemma step_any it ts : LInv f cap it -> step_any_spec it (li_step f it ts).
Proof.
  intros HI. unfold li_step.
  destruct (if Nat.eqb (li_rem it) 0 then fi_next f (li_fi it) 0 else (li_rem it, li_fi it))
    as [rem0 fi0] eqn:E0.
  destruct (head_provision f cap it HI Hcap rem0 fi0 E0) as (HI0 & Hpos & Hz & Hp).
  set (it0 := mkLI fi0 rem0 (li_del it) (li_first it) (li_eating it) (li_removals it)) in *.
  destruct (Nat.eqb_spec rem0 0) as [Hrz|Hrnz]; [exact I|].
  assert (Hlp : lpos it0 = lpos it) by (apply Hp; lia).
  destruct (LInv_window f cap it0 HI0) as (after & Hpe & Haft & Hwl).
  assert (Hm0 : 2 * fi_rem fi0 + rem0 <= meas it).
  { unfold meas. destruct HI as (HFa & Ha1 & Ha2 & _). pose proof HFa as (Fa1 & Fa2 & Fa3 & _). destruct HI0 as (HF0 & Hb1 & Hb2 & _). cbn [it0 li_fi li_rem] in HF0, Hb1, Hb2.
    destruct HF0 as (Fb1 & Fb2 & Fb3 & _). unfold lpos in Hlp. cbn [it0 li_fi li_rem] in Hlp.
    destruct (Nat.eqb_spec (li_rem it) 0) as [Hr0|Hr0]; [lia|injection E0 as <- <-; lia]. }
  clear Hz Hp E0.
  destruct HI0 as (HF0 & H01 & H02 & H03). cbn [it0 li_fi li_rem] in *.
  set (W := firstn rem0 (pend f it0)) in *.
  assert (HW : skipn (length (fi_buf fi0) - rem0) (fi_buf fi0) = W) by exact H03.
  destruct (split_run W) as (bs & run & rest & EW & Hbs & Hrun & Hrr & Hrest & Hcb & Htr).
  assert (Hwl2 : rem0 = length bs + length run + length rest).
  { rewrite <- Hwl, EW, !app_length. lia. }
  assert (Htail : skipn (length (fi_buf fi0) - rem0 + length bs) (fi_buf fi0) = run ++ rest).
  { eapply skipn_window; eauto. }
  rewrite HW, Hcb, Htail.
  rewrite EW, skipn_app_exact in Htr by reflexivity.
  rewrite Htr.
  set (start := length (fi_buf fi0) - rem0 + length bs) in *.
  assert (Hlast : length (fi_buf fi0) = start + length run + length rest) by (unfold start; lia).
  assert (Hp0 : lpos it = fi_pos fi0 - rem0) by (unfold lpos in Hlp; cbn in Hlp; unfold lpos; lia).
  assert (Hskip : skipn (lpos it + length bs) f = run ++ rest ++ after).
  { rewrite skipn_add. rewrite <- Hlp. change (skipn (lpos it0) f) with (pend f it0). rewrite Hpe, EW, <- !app_assoc.
    apply skipn_app_exact; reflexivity. }
  assert (Hoff : Z.to_nat (fi_boff fi0 + Z.of_nat start) = lpos it + length bs).
  { destruct HF0 as (F1 & _). unfold start. lia. }
  pose proof HF0 as (F1 & F2 & F3 & F4 & F5).
  destruct (Nat.eqb (start + length run) (length (fi_buf fi0)) && negb (Nat.eqb start 0)) eqn:Eb.
  - apply andb_true_iff in Eb as [Eb1 Eb2]. apply Nat.eqb_eq in Eb1. apply negb_true_iff, Nat.eqb_neq in Eb2.
    assert (rest = []) as -> by (destruct rest; auto; cbn in Hlast; lia).
    cbn [length app] in *. rewrite !Nat.add_0_r in *. rewrite app_nil_r in *.
    replace (rem0 - length bs) with (length run) by lia.
    destruct (fi_next f fi0 (length run)) as [rem' fi'] eqn:E1.
    destruct (fi_next_spec f cap fi0 (length run) HF0 Hcap) with (n := rem') (it' := fi')
      as (HF' & Ha & Hb); auto; try lia.
    { replace (length (fi_buf fi0) - length run) with start by lia.
      rewrite Htail.
      replace (fi_pos fi0 - length run) with (lpos it + length bs) by lia.
      rewrite Hskip. rewrite firstn_app_exact; auto. }
    cbn [step_any_spec]. unfold meas at 1, lpos at 2. cbn [li_fi li_rem].
    pose proof HF' as (G1 & G2 & G3 & G4 & G5).
    destruct (Nat.eq_dec (fi_rem fi0) 0) as [Hr|Hr].
    + destruct (Ha Hr) as (-> & Hp' & Hr'). split; [|split; lia].
      split; [exact HF'|]. cbn [li_fi li_rem]. split; [lia|]. split; [lia|]. rewrite Nat.sub_0_r, skipn_all. reflexivity.
    + destruct Hb as (B1 & B2 & B3 & B4 & B5 & B6); [lia|]. split; [|split; lia].
      split; [exact HF'|]. cbn [li_fi li_rem]. split; [lia|]. split; [lia|].
      rewrite B1 at 1. rewrite Nat.sub_diag. cbn [skipn]. exact B6.
  - assert (Hrne : run <> []).
    { intros ->. rewrite (Hrr eq_refl) in *. cbn [length] in *. apply andb_false_iff in Eb as [Eb|Eb].
      - apply Nat.eqb_neq in Eb. lia.
      - apply negb_false_iff, Nat.eqb_eq in Eb. lia. }
    assert (Hrl : 0 < length run) by (destruct run; [contradiction|cbn; lia]).
    assert (HLI : forall del fl ea, LInv f cap (mkLI fi0 (rem0 - length bs - length run) del fl ea (li_removals it))).
    { intros. split; [exact HF0|]. cbn [li_fi li_rem]. split; [lia|]. split; [lia|].
      replace (length (fi_buf fi0) - (rem0 - length bs - length run)) with (start + length run) by (unfold start; lia).
      rewrite skipn_add, Htail, skipn_app_exact by reflexivity.
      replace (fi_pos fi0 - (rem0 - length bs - length run)) with (lpos it + length bs + length run) by lia.
      rewrite skipn_add, Hskip, skipn_app_exact by reflexivity.
      symmetry. apply firstn_app_exact. lia. }
    destruct (match run ++ rest with c :: _ => Ascii.eqb c BAR | [] => false end && prefixb time_prefix run).
    { cbn [step_any_spec]. split; [apply HLI|]. unfold meas at 1, lpos at 2. cbn [li_fi li_rem]. split; lia. }
    match goal with |- step_any_spec _ (if ?c then _ else _) => destruct c end.
    { cbn [step_any_spec]. split; [apply HLI|]. unfold meas at 1, lpos at 2. cbn [li_fi li_rem]. split; lia. }
    cbn [step_any_spec]. rewrite Hoff. split; [apply HLI|]. unfold meas at 1, lpos at 4. cbn [li_fi li_rem].
    split; [lia|]. split; [lia|]. split; [lia|]. split; [auto|]. split; [auto|].
    rewrite Hskip. apply firstn_app_exact. reflexivity.
Qed.

Lemma loop_any fuel : forall it ts, LInv f cap it -> meas it < fuel ->
  match li_loop fuel f it ts with
  | RFuel => False
  | REnd _ => True
  | RLine it' off text _ => LInv f cap it' /\ meas it' < meas it /\ lpos it <= off /\ off + length text <= lpos it' /\
      text <> [] /\ no_brk text = true /\ firstn (length text) (skipn off f) = text
  end.
Proof.
  induction fuel as [|fuel IH]; intros it ts HI Hm; [lia|]. cbn [li_loop].
  pose proof (step_any it ts HI) as Hs. destruct (li_step f it ts) as [it'|it' ts'|it' off text ts']; cbn [step_any_spec] in Hs.
  - exact I.
  - destruct Hs as (H1 & H2 & H3). specialize (IH it' ts' H1 ltac:(lia)). destruct (li_loop fuel f it' ts'); auto.
    destruct IH as (I1 & I2 & I3 & I4). split; [auto|]. split; [lia|]. split; [lia|]. auto.
  - exact Hs.
Qed.

(** Entries in order: each begins at or after [p]. *)
Fixpoint in_order (p : nat) (es : list entry) : Prop :=
  match es with
  | [] => True
  | e :: es' => p <= e_off e /\ e_text e <> [] /\ no_brk (e_text e) = true /\
      firstn (length (e_text e)) (skipn (e_off e) f) = e_text e /\ in_order (e_off e + length (e_text e)) es'
  end.

Lemma in_order_le p q es : q <= p -> in_order p es -> in_order q es.
Proof. destruct es as [|e es]; cbn; auto. intros H (H1 & H2). split; [lia|auto]. Qed.

Lemma collect_any n : forall fuel it, LInv f cap it -> meas it < fuel -> length f - lpos it < n ->
  exists es d, li_collect n fuel f it = Some (es, d) /\ in_order (lpos it) es.
Proof.
  induction n as [|n IH]; intros fuel it HI Hm Hn; [lia|]. cbn [li_collect]. unfold li_next.
  pose proof (loop_any fuel it None HI Hm) as Hs. destruct (li_loop fuel f it None) as [|it'|it' off text ts'].
  - destruct Hs.
  - eexists _, _. split; [reflexivity|exact I].
  - destruct Hs as (H1 & H2 & H3 & H4 & H5 & H6 & H7).
    assert (0 < length text) by (destruct text; [contradiction|cbn; lia]).
    assert (lpos it' <= length f).
    { destruct H1 as ((_ & F2 & _) & _). unfold lpos. lia. }
    destruct (IH fuel it' H1 ltac:(lia) ltac:(lia)) as (es & d & -> & Ho).
    eexists _, _. split; [reflexivity|]. cbn [in_order e_off e_text].
    split; [auto|]. split; [auto|]. split; [auto|]. split; [auto|]. eapply in_order_le; eauto.
Qed.
End Any.

Lemma read_any garbage rs f : 0 < length garbage ->
  exists es d, read_bank garbage rs f = Some (es, d) /\ in_order f 0 es.
Proof.
  intros Hg. unfold read_bank.
  assert (HI : LInv f (length garbage) (li_init f garbage rs)).
  { split.
    + unfold FInv, li_init, fi_init; cbn. rewrite set0_length. repeat split; lia.
    + unfold li_init, fi_init; cbn. split; [lia|]. split; [lia|].
      rewrite Nat.sub_0_r, set0_length, <- set0_length, skipn_all. reflexivity. }
  destruct (collect_any f (length garbage) Hg (S (length f)) (li_fuel f) _ HI) as (es & d & E & Ho).
  - unfold meas, li_fuel, li_init, fi_init. cbn. lia.
  - lia.
  - exists es, d. split; [exact E|]. exact Ho.
Qed.
