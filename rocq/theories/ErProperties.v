(** C110: the exit code of the last command is read from what echo wrote, whether cmd writes ANSI or UTF-16. *)
From Verif Require Import Base SettingsModel ErModel.

Definition plain (l : bytes) : Prop := Forall (fun c => (0 < N_of_ascii c < 128)%N /\ c <> LF) l.
Definition utf16 (l : bytes) : bytes := flat_map (fun c => [c; NUL]) l.
Definition code_of : Z -> Prop := fun z => (-2147483648 <= z <= 2147483647)%Z.
(** blanks after the number *)
Definition blanks (l : bytes) : Prop := Forall (fun c => c = SPC \/ c = TAB) l.

Lemma dec_fuel_digits : forall fuel n acc, Forall (fun c => is_digit c = true) acc -> Forall (fun c => is_digit c = true) (dec_fuel fuel n acc).
Proof.
  induction fuel as [|k IH]; intros n acc H; cbn [dec_fuel]; [exact H|]. cbv zeta.
  assert (D : Forall (fun c => is_digit c = true) (digit (n mod 10) :: acc)) by (constructor; [apply digit_is_digit, N.mod_upper_bound; lia | exact H]).
  destruct (n <? 10)%N; [exact D | apply IH, D].
Qed.
Lemma dec_digits' : forall n, Forall (fun c => is_digit c = true) (dec n).
Proof. intros n. apply dec_fuel_digits. constructor. Qed.
Lemma dec_nonempty : forall n, dec n <> [].
Proof. intros n H. unfold dec in H. cbn [dec_fuel] in H. cbv zeta in H. destruct (n <? 10)%N; [discriminate|]. rewrite dec_fuel_acc in H. destruct (dec_fuel _ _ []); discriminate. Qed.
Lemma leading_all : forall l r, Forall (fun c => is_digit c = true) l -> (match r with [] => True | c :: _ => is_digit c = false end) -> leading_digits (l ++ r) = l.
Proof.
  induction l as [|c l IH]; intros r H R.
  - destruct r as [|c r]; [reflexivity|]. cbn [app leading_digits]. rewrite R. reflexivity.
  - inversion H as [|c' l' H1 H2]; subst. cbn [app leading_digits]. rewrite H1. f_equal. apply IH; assumption.
Qed.
Lemma digit_not : forall c, is_digit c = true -> is_space c = false /\ Ascii.eqb c "-" = false /\ Ascii.eqb c "+" = false.
Proof.
  intros c H. unfold is_digit in H. unfold is_space. cbv zeta. split; [lia|].
  split; apply Ascii.eqb_neq; intros ->; vm_compute in H; discriminate.
Qed.
Lemma atoi_code : forall z r, code_of z -> (match r with [] => True | c :: _ => is_digit c = false end) -> atoi (dec_z z ++ r) = z.
Proof.
  intros z r C R. unfold dec_z, code_of in *. destruct (z <? 0)%Z eqn:Z0.
  - cbn [app]. unfold atoi. cbn [skip_space]. change (is_space "-") with false. cbn iota. cbv zeta. change (Ascii.eqb "-" "-") with true. cbn iota.
    rewrite leading_all by (apply dec_digits' || exact R). rewrite undec_dec. unfold clamp. lia.
  - destruct (dec (Z.to_N z)) as [|c l] eqn:D; [exfalso; exact (dec_nonempty _ D)|].
    pose proof (dec_digits' (Z.to_N z)) as DD. rewrite D in DD. assert (CD : is_digit c = true) by (inversion DD; assumption).
    destruct (digit_not c CD) as (A1 & A2 & A3). unfold atoi. cbn [app skip_space]. rewrite A1. cbv zeta. rewrite A2, A3.
    change (c :: l ++ r) with ((c :: l) ++ r). rewrite leading_all by assumption. rewrite <- D, undec_dec. unfold clamp. lia.
Qed.
Lemma plain_not : forall c, (0 < N_of_ascii c < 128)%N /\ c <> LF -> is_eof c = false /\ Ascii.eqb c NUL = false /\ Ascii.eqb c LF = false.
Proof.
  intros c [H1 H2]. split; [|split]; apply Ascii.eqb_neq; intros E; subst c.
  - rewrite N_ascii_embedding in H1 by lia. lia.
  - vm_compute in H1. destruct H1; discriminate.
  - congruence.
Qed.
Lemma ansi_loop_plain : forall l out rest, plain l -> ansi_loop (l ++ LF :: rest) out = out ++ l.
Proof.
  induction l as [|c l IH]; intros out rest P.
  - cbn [app ansi_loop]. rewrite app_nil_r. reflexivity.
  - inversion P as [|c' l' P1 P2]; subst. destruct (plain_not c P1) as (A1 & A2 & A3). cbn [app ansi_loop]. rewrite A1, A2, A3. cbn [orb]. rewrite IH by exact P2. rewrite <- app_assoc. reflexivity.
Qed.
Lemma wide_loop_plain : forall l out rest, plain l -> wide_loop (utf16 l ++ LF :: NUL :: rest) out = out ++ l.
Proof.
  induction l as [|c l IH]; intros out rest P.
  - cbn [utf16 flat_map app wide_loop]. rewrite app_nil_r. reflexivity.
  - inversion P as [|c' l' P1 P2]; subst. destruct (plain_not c P1) as (A1 & A2 & A3). cbn [utf16 flat_map app wide_loop]. unfold is_unit, unit_byte. rewrite A2, A3. change (Ascii.eqb NUL NUL) with true. cbn [andb orb].
    assert (B : (N_of_ascii c <? 128)%N = true) by lia. rewrite B. change (flat_map _ l) with (utf16 l). rewrite IH by exact P2. rewrite <- app_assoc. reflexivity.
Qed.
Lemma strip_cr_end : forall l, strip_cr (l ++ [CR]) = l.
Proof. intros l. unfold strip_cr. rewrite rev_app_distr. cbn [rev app]. change (Ascii.eqb CR CR) with true. cbn iota. apply rev_involutive. Qed.
Lemma digit_plain : forall c, is_digit c = true -> (0 < N_of_ascii c < 128)%N /\ c <> LF.
Proof. intros c H. unfold is_digit in H. split; [lia|]. intros ->. vm_compute in H. discriminate. Qed.
Lemma code_plain : forall z, plain (dec_z z).
Proof.
  intros z. assert (D : forall n, plain (dec n)) by (intros n; eapply Forall_impl; [|apply dec_digits']; intros c H; apply digit_plain, H).
  unfold dec_z. destruct (z <? 0)%Z; [constructor; [split; [vm_compute; split; reflexivity | discriminate] | apply D] | apply D].
Qed.
Lemma code_first : forall z, exists c l, dec_z z = c :: l.
Proof. intros z. unfold dec_z. destruct (z <? 0)%Z; [eexists; eexists; reflexivity|]. destruct (dec (Z.to_N z)) as [|c l] eqn:D; [exfalso; exact (dec_nonempty _ D) | eexists; eexists; reflexivity]. Qed.
Lemma blanks_plain : forall l, blanks l -> plain l.
Proof. intros l H. eapply Forall_impl; [|exact H]. intros c [-> | ->]; (split; [vm_compute; split; reflexivity | discriminate]). Qed.
Lemma blanks_end : forall l r, blanks l -> (match r with [] => True | c :: _ => is_digit c = false end) -> match l ++ r with [] => True | c :: _ => is_digit c = false end.
Proof. intros l r H R. destruct l as [|c l]; [exact R|]. inversion H as [|c' l' [-> | ->] H2]; subst; reflexivity. Qed.

(** ** C110 *)
(** Whatever exit code, blanks and line end echo writes, in the ANSI code page or in UTF-16, and whatever follows, the exit code is read. *)
Theorem exit_code_read : forall acp z b eol rest, (forall l, Forall (fun c => (N_of_ascii c < 128)%N) l -> acp l = l) -> code_of z -> blanks b -> eol = [CR; LF] \/ eol = [LF] ->
  errorlevel acp (Some (dec_z z ++ b ++ eol ++ rest)) = z /\ errorlevel acp (Some (utf16 (dec_z z ++ b ++ eol) ++ rest)) = z.
Proof.
  intros acp z b eol rest A C B E.
  assert (K : exists e, eol = e ++ [LF] /\ plain e /\ strip_cr (dec_z z ++ b ++ e) = dec_z z ++ b).
  { destruct E as [-> | ->].
    - exists [CR]. split; [reflexivity|]. split; [constructor; [split; [vm_compute; split; reflexivity | discriminate] | constructor]|]. rewrite app_assoc. apply strip_cr_end.
    - exists []. split; [reflexivity|]. split; [constructor|]. rewrite app_nil_r.
      assert (Q : forall l, plain l -> Forall (fun c => c <> CR) l -> strip_cr l = l).
      { intros l _ Q. unfold strip_cr. destruct (rev l) as [|c r] eqn:R; [reflexivity|]. destruct (Ascii.eqb c CR) eqn:X; [|reflexivity].
        apply Ascii.eqb_eq in X. rewrite Forall_forall in Q. exfalso. apply (Q c); [|exact X]. apply in_rev. rewrite R. left. reflexivity. }
      apply Q; [apply Forall_app; split; [apply code_plain | apply blanks_plain, B]|]. apply Forall_app. split.
      + assert (D : forall n, Forall (fun c => c <> CR) (dec n)) by (intros n; eapply Forall_impl; [|apply dec_digits']; intros c H ->; vm_compute in H; discriminate).
        unfold dec_z. destruct (z <? 0)%Z; [constructor; [discriminate | apply D] | apply D].
      + eapply Forall_impl; [|exact B]. intros c [-> | ->]; discriminate. }
  destruct K as (e & -> & P & S0).
  assert (PL : plain (dec_z z ++ b ++ e)) by (apply Forall_app; split; [apply code_plain | apply Forall_app; split; [apply blanks_plain, B | exact P]]).
  assert (AT : atoi (dec_z z ++ b) = z) by (apply atoi_code; [exact C|]; rewrite <- (app_nil_r b); apply blanks_end; [exact B | exact Logic.I]).
  assert (PA : acp (dec_z z ++ b) = dec_z z ++ b).
  { apply A. apply Forall_app. split; [eapply Forall_impl; [|apply code_plain] | eapply Forall_impl; [|apply blanks_plain, B]]; intros c [H _]; lia. }
  destruct (dec_z z ++ b ++ e) as [|c l] eqn:L; [destruct (code_first z) as (c & l & F); rewrite F in L; discriminate|].
  inversion PL as [|c' l' P1 P2]; subst. destruct (plain_not c P1) as (N1 & N2 & N3).
  assert (L1 : dec_z z ++ b ++ (e ++ [LF]) ++ rest = c :: l ++ LF :: rest).
  { rewrite <- !app_assoc. cbn [app]. rewrite (app_assoc b e), (app_assoc (dec_z z)), L. reflexivity. }
  assert (L2 : utf16 (dec_z z ++ b ++ e ++ [LF]) ++ rest = c :: NUL :: utf16 l ++ LF :: NUL :: rest).
  { rewrite (app_assoc b e), (app_assoc (dec_z z)), L. unfold utf16. rewrite flat_map_app. cbn [flat_map app]. rewrite <- app_assoc. reflexivity. }
  unfold errorlevel. rewrite L1, L2. split.
  - assert (F : first_line acp (c :: l ++ LF :: rest) = Some (acp (strip_cr (c :: l)))).
    { destruct l as [|c2 l].
      - cbn [app first_line]. change (Ascii.eqb LF NUL) with false. cbn iota. rewrite N3. reflexivity.
      - inversion P2 as [|c' l' Q1 Q2]; subst. destruct (plain_not c2 Q1) as (M1 & M2 & M3). cbn [app first_line]. rewrite M2, N3. unfold ansi. rewrite M1.
        change (c2 :: l ++ LF :: rest) with ((c2 :: l) ++ LF :: rest). rewrite ansi_loop_plain by exact P2. reflexivity. }
    rewrite F, S0, PA. exact AT.
  - assert (F : first_line acp (c :: NUL :: utf16 l ++ LF :: NUL :: rest) = Some (strip_cr (c :: l))).
    { cbn [first_line]. change (Ascii.eqb NUL NUL) with true. cbn iota. rewrite N3.
      assert (W : wide (utf16 l ++ LF :: NUL :: rest) [unit_byte c NUL] = Some (wide_loop (utf16 l ++ LF :: NUL :: rest) [unit_byte c NUL])) by (destruct l; reflexivity).
      rewrite W, wide_loop_plain by exact P2. cbn [option_map]. do 2 f_equal. unfold unit_byte. change (Ascii.eqb NUL NUL) with true. assert (B2 : (N_of_ascii c <? 128)%N = true) by lia. rewrite B2. reflexivity. }
    rewrite F, S0. exact AT.
Qed.

Example er_code : errorlevel (fun l => l) (Some (lit "-1073741510 " ++ [CR; LF])) = (-1073741510)%Z /\ errorlevel (fun l => l) (Some (utf16 (lit "7 " ++ [CR; LF]))) = 7%Z.
Proof. split; reflexivity. Qed.
Example er_hyps : code_of (-1073741510) /\ blanks [SPC] /\ dec_z (-1073741510) = lit "-1073741510".
Proof. split; [unfold code_of; lia|]. split; [constructor; [left; reflexivity | constructor] | reflexivity]. Qed.
Print Assumptions exit_code_read.
