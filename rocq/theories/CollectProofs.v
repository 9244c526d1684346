(** Proofs about CollectModel: the commands and the tokens as ranges of the line. *)
From Verif Require Import Base DoskeyModel DoskeySpec DoskeyProofs CmdTokModel CmdTokSpec CmdTokProofs CmdTokRem CmdTokLoop CmdTokCommands CmdTokWords
  CollectModel CollectSpec.

Lemma ceq_iff a b : ceq a b = true <-> a = b.
Proof. unfold ceq. apply Ascii.eqb_eq. Qed.

Lemma nth_app_at (a b : bytes) i : nth (length a + i) (a ++ b) NUL = nth i b NUL.
Proof. rewrite app_nth2 by lia. f_equal. lia. Qed.
Lemma nth_Forall (P : byte -> Prop) (l : bytes) i : Forall P l -> i < length l -> P (nth i l NUL).
Proof. intros F L. rewrite Forall_forall in F. apply F, nth_In, L. Qed.
Lemma nth_firstn (l : bytes) : forall n i, i < n -> nth i (firstn n l) NUL = nth i l NUL.
Proof. induction l as [|x l IH]; intros [|n] [|i] H; cbn; try reflexivity; try lia. apply IH. lia. Qed.
Lemma nth_skipn (l : bytes) : forall n i, nth i (skipn n l) NUL = nth (n + i) l NUL.
Proof. induction l as [|x l IH]; intros [|n] i; cbn; try reflexivity; [destruct i; reflexivity|apply IH]. Qed.

(** ** Commands *)
Section Commands.
Variable lookup : bytes -> option bytes.
Variable enhanced : bool.

(** [text]: all of the text the commands are looked for in *)
Lemma pre_chars first l pre : lead lookup first l pre -> Forall (fun c => In c (lit " @(")) pre.
Proof.
  intros [[(O & _) _]|[(-> & _)|(-> & _)]].
  - destruct O as [->|(q & F & O)]; [constructor|].
    assert (G : forall x, Forall (fun c => In c (lit " @(")) x -> Forall (fun c => In c (lit " @(")) (q ++ x)) by (intros x X; apply Forall_app; auto).
    destruct O as [->|[->| ->]]; apply G; repeat (apply Forall_cons; [cbn; tauto|]); constructor.
  - repeat (apply Forall_cons; [cbn; tauto|]); constructor.
  - constructor.
Qed.

Lemma commands_in_order text : forall fuel done l, length l < fuel -> text = rev done ++ l ->
  (done <> [] -> l = [] \/ exists c r, l = c :: r /\ (c = AMP \/ c = BAR)) ->
  forall lo, lo <= length done -> (forall i, lo <= i < length done -> In (BYTE text i) (lit " @()&|")) ->
  (lo = length done \/ BYTE text lo = ")"%char) ->
  exists xs, commands_from lookup enhanced fuel (done, l) = Some xs /\ in_order text (length text) (is_nil done) lo xs /\ (l <> [] -> xs <> []).
Proof.
  induction fuel as [|fuel IH]; intros done l F T H lo LO GA CL0; [lia|]. cbn [commands_from snd]. destruct l as [|c0 l0].
  - exists []. split; [reflexivity|]. rewrite app_nil_r in T. assert (LT : length text = length done) by (rewrite T; apply rev_length).
    split; [|congruence]. cbn [in_order]. rewrite LT. auto.
  - destruct (next_ok lookup enhanced done (c0 :: l0)) as (sep & pre & tx & close & rest & E & NX & SEP & LEAD & CL & _ & RE & F1 & F2 & LT).
    { discriminate. }
    { intros ND. destruct (H ND) as [X|X]; [discriminate|exact X]. }
    rewrite NX. set (done' := rev (sep ++ pre ++ tx ++ close) ++ done) in *.
    assert (LD : length done' = length done + length sep + length pre + length tx + length close).
    { unfold done'. rewrite app_length, rev_length, !app_length. lia. }
    assert (TE : text = rev done ++ sep ++ pre ++ tx ++ close ++ rest) by (rewrite T, E; reflexivity).
    assert (LTX : length text = length done + length sep + length pre + length tx + length close + length rest).
    { rewrite TE, !app_length, rev_length. lia. }
    assert (CC : forall i, i < length close -> BYTE text (length done + length sep + length pre + length tx + i) = nth i close NUL).
    { intros i I. rewrite TE. rewrite <- (rev_length done).
      replace (length (rev done) + length sep + length pre + length tx + i) with (length (rev done) + (length sep + (length pre + (length tx + i)))) by lia.
      rewrite !nth_app_at. apply app_nth1. exact I. }
    destruct (IH done' rest) with (lo := length done + length sep + length pre + length tx) as (xs & -> & IO & _).
    { cbn [length] in *. lia. }
    { unfold done'. rewrite rev_app_distr, rev_involutive, TE, <- !app_assoc. reflexivity. }
    { intros _. exact RE. }
    { rewrite LD. lia. }
    { intros i I. replace i with (length done + length sep + length pre + length tx + (i - (length done + length sep + length pre + length tx))) by lia.
      rewrite CC by lia. apply nth_Forall; [exact F2|lia]. }
    { destruct CL as (_ & (_ & _ & [->|(v & ->)]) & _); [left; rewrite LD; cbn [length]; lia|right].
      rewrite <- (Nat.add_0_r (_ + length tx)), CC by (cbn [length]; lia). reflexivity. }
    exists ((length done + length sep + length pre, length tx) :: xs). split; [reflexivity|]. split; [|discriminate]. cbn [in_order].
    split; [lia|]. split; [lia|]. split.
    { intros i I. destruct (Nat.ltb i (length done)) eqn:B; [apply GA; lia|].
      rewrite TE. replace i with (length (rev done) + (i - length done)) by (rewrite rev_length; lia). rewrite nth_app_at.
      rewrite app_assoc, app_nth1 by (rewrite app_length; lia). apply nth_Forall; [exact F1|rewrite app_length; lia]. }
    split.
    + intros ND. destruct done as [|d0 d1]; [discriminate|]. set (done := d0 :: d1) in *. cbn [is_nil separator] in SEP.
      assert (SB : exists c s, sep = c :: s /\ sep_byte c).
      { destruct SEP as [->|[->|[[-> _]|[-> _]]]]; do 2 eexists; (split; [reflexivity|]); unfold sep_byte, AMP, CmdTokSpec.BAR; auto. }
      destruct SB as (c & s & -> & SB). exists (length done). split; [cbn [length]; lia|].
      rewrite TE, <- (rev_length done), <- (Nat.add_0_r (length (rev done))), nth_app_at. exact SB.
    + assert (ND : is_nil done' = false).
      { destruct done' as [|x y] eqn:DD; [|reflexivity]. exfalso. cbn [length] in LD. apply (f_equal (@length _)) in E. rewrite !app_length in E. cbn [length] in *. lia. }
      rewrite ND in IO. exact IO.
Qed.

Lemma commands_ranges text : exists xs, commands lookup enhanced text = Some xs /\ in_order text (length text) true 0 xs /\ (text <> [] -> xs <> []).
Proof.
  apply (commands_in_order text (S (length text)) [] text); [lia|reflexivity|congruence|cbn; lia|cbn; lia|left; reflexivity].
Qed.

End Commands.

Lemma in_order_lo line stop : forall cs first lo, in_order line stop first lo cs -> lo <= stop.
Proof. intros [|[o n] r] first lo H; cbn in H; [tauto|]. destruct H as (H1 & H2 & _). lia. Qed.

Lemma in_order_line line stop : stop <= length line -> forall cs first lo, in_order (firstn stop line) stop first lo cs -> in_order line stop first lo cs.
Proof.
  intros S. induction cs as [|[o n] r IH]; intros first lo H.
  - cbn [in_order] in *. destruct H as (H1 & H2 & H3). split; [exact H1|]. split.
    + intros i I. rewrite <- (nth_firstn line stop) by lia. apply H2. exact I.
    + destruct H3 as [H3|H3]; [auto|]. destruct (Nat.eqb lo stop) eqn:B; [left; lia|right]. rewrite <- (nth_firstn line stop) by lia. exact H3.
  - cbn [in_order] in *. destruct H as (H1 & H2 & H3 & H4 & H5). split; [exact H1|]. split; [exact H2|]. split.
    + intros i I. rewrite <- (nth_firstn line stop) by lia. apply H3. exact I.
    + split; [|apply IH; exact H5]. intros X. destruct (H4 X) as (j & J & SB). exists j. split; [exact J|]. rewrite <- (nth_firstn line stop) by lia. exact SB.
Qed.

Lemma until_order line cursor stopc stop : (stopc = true -> stop = cursor) -> forall cs first lo, in_order line stop first lo cs -> in_order line stop first lo (until stopc cursor cs).
Proof.
  intros SC. induction cs as [|[o n] r IH]; intros first lo H; [exact H|]. cbn [until in_order] in *. destruct H as (H1 & H2 & H3 & H4 & H5).
  split; [exact H1|]. split; [exact H2|]. split; [exact H3|]. split; [exact H4|].
  destruct (stopc && Nat.leb o cursor && Nat.leb cursor (o + n)) eqn:B; [|apply IH; exact H5].
  apply andb_true_iff in B as [B B3]. apply andb_true_iff in B as [B1 B2]. specialize (SC B1). apply Nat.leb_le in B3. subst stop.
  assert (o + n = cursor) by lia. cbn [in_order]. split; [lia|]. split; [lia|]. left. exact H.
Qed.
Lemma until_nonempty stopc cursor cs : cs <> [] -> until stopc cursor cs <> [].
Proof. destruct cs as [|[o n] r]; [congruence|discriminate]. Qed.
