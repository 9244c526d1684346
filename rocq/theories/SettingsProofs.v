(** Proofs about settings: values as texts. *)
From Verif Require Import Base ColorModel ColorSpec ColorProofs ColorParse ColorRound ColorProperties SettingsModel SettingsSpec.
Arguments dec : simpl never.

Lemma lower_eq c : ColorModel.lower c = lower_case c.
Proof. reflexivity. Qed.
Lemma iequal_alike a b : iequal a b = true <-> alike a b.
Proof. unfold iequal, alike. rewrite eqb_bytes_eq. reflexivity. Qed.
Lemma iequal_refl a : iequal a a = true.
Proof. apply iequal_alike. reflexivity. Qed.
Lemma iequal_false a b : iequal a b = false <-> ~ alike a b.
Proof. rewrite <- iequal_alike. destruct (iequal a b); split; intro H; congruence. Qed.

Lemma is_space_blank c : is_space c = true <-> blank c.
Proof.
  unfold blank. split.
  - destruct c as [[] [] [] [] [] [] [] []]; intro H; vm_compute in H; try discriminate; vm_compute; tauto.
  - intros [<-|[<-|[<-|[<-|[<-|[<-|[]]]]]]]; reflexivity.
Qed.
Lemma not_blank c : ~ blank c -> is_space c = false.
Proof. intro H. destruct (is_space c) eqn:E; auto. apply is_space_blank in E. tauto. Qed.
Lemma digit_not_blank c : is_digit c = true -> is_space c = false.
Proof. unfold is_digit, is_space. intro H. lia. Qed.

Lemma leading_digits_all l : forallb is_digit l = true -> leading_digits l = l.
Proof.
  induction l as [|c l IH]; cbn; auto. intro H. apply andb_true_iff in H as [A B]. rewrite A, IH; auto.
Qed.
Lemma digit_head n : exists c r, dec n = c :: r /\ is_digit c = true /\ forallb is_digit (c :: r) = true.
Proof.
  pose proof (dec_nonnil n) as A. pose proof (dec_digits n) as B. destruct (dec n) as [|c r]; [congruence|].
  exists c, r. split; auto. split; auto. cbn in B. apply andb_true_iff in B. tauto.
Qed.
Lemma digit_not c d : is_digit c = true -> is_digit d = false -> Ascii.eqb c d = false.
Proof. intros A B. destruct (Ascii.eqb_spec c d); [congruence|reflexivity]. Qed.

Lemma atoi_dec_z z : (-2147483648 <= z <= 2147483647)%Z -> atoi (dec_z z) = z.
Proof.
  intro R. unfold dec_z. destruct (Z.ltb_spec z 0) as [N|N].
  - change (atoi ("-"%char :: dec (Z.to_N (- z)))) with (clamp (- Z.of_N (undec 0 (leading_digits (dec (Z.to_N (- z))))))).
    rewrite leading_digits_all by apply dec_digits. rewrite undec_dec. unfold clamp. lia.
  - unfold atoi. destruct (digit_head (Z.to_N z)) as (c & r & E & D & A). rewrite E.
    cbn [skip_space]. rewrite (digit_not_blank c D). cbv zeta iota.
    rewrite (digit_not c "-" D eq_refl), (digit_not c "+" D eq_refl). rewrite leading_digits_all by auto.
    rewrite <- E, undec_dec. unfold clamp. lia.
Qed.

Section P.
Variable same : bytes -> bytes -> bool.

Lemma enum_loop_found os : forall i n b k, nth_error os i = Some n -> (b < 0)%Z -> same n n = true ->
  (forall j m, j < i -> nth_error os j = Some m -> same m n = false) ->
  enum_loop same os n b k = Some (k + Z.of_nat i)%Z.
Proof.
  induction os as [|o os IH]; intros i n b k E B R D; [destruct i; discriminate|].
  cbn [enum_loop]. replace (b =? 0)%Z with false by lia. cbn [orb]. destruct i as [|i].
  - injection E as ->. rewrite R. f_equal. lia.
  - rewrite (D 0 o) by (auto; lia). cbn in E. rewrite (IH i n) by (auto; try lia; intros j m L H; apply (D (S j)); auto; lia). f_equal. lia.
Qed.
Lemma enum_loop_range os v : forall b k z, enum_loop same os v b k = Some z -> (k <= z < k + Z.of_nat (length os))%Z.
Proof.
  induction os as [|o os IH]; intros b k z H; cbn [enum_loop] in H; [discriminate|].
  destruct ((b =? 0)%Z || same o v); [injection H as <-; cbn [length]; lia|]. apply IH in H. cbn [length]. lia.
Qed.

Lemma color_round c compat : color_ok c -> exists d, format_color compat c = Some d /\ parse_color d = Some c.
Proof.
  intros [->|[(t & R & P)|(n & ns & S1 & S2 & NZ)]].
  - exists []. split; reflexivity.
  - eapply colors_survive; eauto.
  - destruct (round compat c (n :: ns) S1 S2) as [[A B]|(a & V & N & _)]; [eauto|].
    unfold numbers in N. congruence.
Qed.

Definition describe_ok (k : kind) (v : val) : Prop :=
  exists t, describe_val k v true = Some t /\ parse_val same k t = Some v.
Lemma describe_round k v : value_of k v -> match k with KEnum o => options_ok same o | _ => True end -> describe_ok k v.
Proof.
  intros V O. unfold describe_ok. destruct k as [| |o| |], v as [b|z|s]; cbn in V; try contradiction; cbn [describe_val].
  - eexists. split; [reflexivity|]. destruct b; reflexivity.
  - eexists. split; [reflexivity|]. cbn [parse_val]. rewrite atoi_dec_z by auto.
    unfold dec_z. destruct (z <? 0)%Z; [reflexivity|].
    destruct (digit_head (Z.to_N z)) as (c & r & E & D & _). rewrite E, D. reflexivity.
  - destruct O as (O1 & O2 & O3).
    assert (E : exists n, nth_error (options_of o) (Z.to_nat z) = Some n).
    { destruct (nth_error (options_of o) (Z.to_nat z)) eqn:E; eauto. apply nth_error_None in E. lia. }
    destruct E as (n & E). exists n. unfold option_name. replace (z <? 0)%Z with false by lia.
    rewrite (nth_error_nth _ _ [] E). split; [reflexivity|].
    destruct (O2 _ _ E) as (A1 & A2 & A3 & A4). cbn [parse_val]. cbv zeta.
    replace (match n with c :: _ => if is_digit c then if forallb is_digit n then atoi n else (-1)%Z else (-1)%Z | [] => (-1)%Z end) with (-1)%Z
      by (destruct n as [|c n]; [reflexivity|]; rewrite A3; destruct (is_digit c); reflexivity).
    rewrite (enum_loop_found _ (Z.to_nat z) n); [cbn; do 2 f_equal; lia|auto|lia|auto|].
    intros j m L H. eapply O3; eauto.
  - eexists. split; reflexivity.
  - destruct (color_round s true V) as (d & A & B). exists d. split; auto. cbn [parse_val]. rewrite B. reflexivity.
Qed.

(** The text of a value fits on a line. *)
Lemma line_ok_app a b : line_ok a -> line_ok b -> line_ok (a ++ b).
Proof. intros A B c H. apply in_app_or in H as [H|H]; auto. Qed.
Lemma digits_line l : forallb is_digit l = true -> line_ok l.
Proof.
  intros D c H. rewrite forallb_forall in D. specialize (D c H).
  split; [|split]; intros ->; discriminate.
Qed.
Lemma digit_value c : is_digit c = true -> ~ blank c.
Proof. intros D H. apply is_space_blank in H. rewrite digit_not_blank in H by auto. discriminate. Qed.

Lemma reg_line t : forallb (fun c => negb (Ascii.eqb c CR) && negb (Ascii.eqb c LF) && negb (Ascii.eqb c NUL)) t = true -> line_ok t.
Proof.
  intros F c H. rewrite forallb_forall in F. specialize (F c H). apply andb_true_iff in F as [F F3]. apply andb_true_iff in F as [F1 F2].
  split; [|split]; intros ->; discriminate.
Qed.
Lemma lit_value t : forallb (fun c => negb (Ascii.eqb c CR) && negb (Ascii.eqb c LF) && negb (Ascii.eqb c NUL)) t = true ->
  match t with c :: _ => is_space c = false | [] => True end -> value_ok t.
Proof.
  intros A B. split; [apply reg_line; auto|]. intros c r -> H. apply is_space_blank in H. congruence.
Qed.

Lemma col_words_line c : valid_col c -> Forall (fun t => value_ok t) (col_words c).
Proof.
  intro V. destruct c as [|b i|r g b]; cbn in V.
  - apply Forall_cons; [apply lit_value; reflexivity|apply Forall_nil].
  - do 8 (destruct i as [|i]; [destruct b; repeat (apply Forall_cons; [apply lit_value; reflexivity|]); apply Forall_nil|]). lia.
  - destruct V as (V1 & V2 & V3). apply Forall_cons; [|apply Forall_nil].
    assert (H : forall n, (n < 16)%N -> negb (Ascii.eqb (hex_digit n) CR) && negb (Ascii.eqb (hex_digit n) LF) && negb (Ascii.eqb (hex_digit n) NUL) = true).
    { intros n L. assert (E : n = N.of_nat (N.to_nat n)) by lia. assert (L' : N.to_nat n < 16) by lia.
      rewrite E. generalize dependent (N.to_nat n). clear. intros k _ L. do 16 (destruct k as [|k]; [reflexivity|]). lia. }
    apply lit_value; [|reflexivity]. cbn -[hex_digit N.div N.modulo]. rewrite !H by lia. reflexivity.
Qed.
Lemma words_line a : valid a -> Forall (fun t => value_ok t) (words a).
Proof.
  intros [V1 V2]. rewrite words_pre. apply Forall_app. split.
  - destruct a as [[] [[]|] [] [] f b]; cbn; repeat (apply Forall_cons; [apply lit_value; reflexivity|]); apply Forall_nil.
  - apply Forall_app. split.
    + destruct (a_fg a); cbn; [apply col_words_line; auto|apply Forall_nil].
    + destruct (a_bg a); cbn; [apply Forall_cons; [apply lit_value; reflexivity|apply col_words_line; auto]|apply Forall_nil].
Qed.
Lemma join_line ts : Forall (fun t => value_ok t) ts -> Forall (fun t => t <> []) ts -> value_ok (join [SPC] ts).
Proof.
  intros F NE.
  assert (L : line_ok (join [SPC] ts)).
  { clear NE. induction ts as [|t ts IH]; [intros c []|]. pose proof (Forall_inv F) as [A _]. apply Forall_inv_tail in F.
    destruct ts as [|u ts]; [exact A|]. change (join [SPC] (t :: u :: ts)) with (t ++ [SPC] ++ join [SPC] (u :: ts)).
    apply line_ok_app; auto. apply line_ok_app; [apply reg_line; reflexivity|]. apply IH; auto. }
  split; auto. intros c r E. destruct ts as [|t ts]; [discriminate|].
  pose proof (Forall_inv F) as [_ B]. pose proof (Forall_inv NE) as N. cbn beta in N. destruct t as [|x t]; [congruence|].
  apply (B c t). destruct ts; cbn in E; congruence.
Qed.

Lemma sgr_line c ns : sgr_numbers c ns -> line_ok c.
Proof.
  intro H. unfold sgr_numbers in H.
  assert (K : forall l cur ns, Forall2 (fun f n => f <> [] /\ forallb is_digit f = true /\ undec 0 f = n) (fields_from l cur) ns ->
    line_ok cur -> line_ok (cur ++ l)).
  { clear. induction l as [|c l IH]; intros cur ns H C; cbn [fields_from] in H.
    - rewrite app_nil_r. auto.
    - destruct (Ascii.eqb_spec c ";") as [->|NC].
      + inversion H as [|f n fs ns' (A & B & D) F]; subst. apply line_ok_app; auto.
        change (";"%char :: l) with ([";"%char] ++ l). apply line_ok_app; [apply reg_line; reflexivity|].
        apply (IH [] ns' F). intros x [].
      + assert (X : line_ok [c] \/ True) by auto. 
        assert (Dc : is_digit c = true).
        { revert H. assert (Y : exists x, fields_from l (cur ++ [c]) = (cur ++ c :: x) :: tl (fields_from l (cur ++ [c]))).
          { clear. revert cur c. induction l as [|d l IH]; intros cur c; cbn [fields_from].
            - exists []. reflexivity.
            - destruct (Ascii.eqb d ";"); [exists []; reflexivity|]. destruct (IH (cur ++ [c]) d) as (x & E). exists (d :: x).
              rewrite E at 1. rewrite <- app_assoc. reflexivity. }
          destruct Y as (x & Y). rewrite Y. intro H. inversion H as [|f n fs ns' (A & B & D) F]; subst.
          rewrite forallb_app in B. apply andb_true_iff in B as [_ B]. cbn in B. apply andb_true_iff in B. tauto. }
        apply (IH _ ns) in H; [rewrite <- app_assoc in H; exact H|]. apply line_ok_app; auto. apply digits_line. cbn. rewrite Dc. reflexivity. }
  apply (K c [] ns H). intros x [].
Qed.

Lemma format_line c d : color_ok c -> format_color true c = Some d -> value_ok d.
Proof.
  intros C F.
  assert (K : forall ns, sgr_numbers c ns -> Forall (fun n => (n < 2147483648)%N) ns -> value_ok d).
  { intros ns S1 S2. destruct (round true c ns S1 S2) as [[A _]|(a & V & N & _ & A & _)]; rewrite F in A; injection A as ->.
    - split; [exact (line_ok_app (lit "sgr ") c ltac:(apply reg_line; reflexivity) ltac:(eapply sgr_line; eauto))|]. intros x r E. injection E as <- _.
      intro H. apply is_space_blank in H. discriminate.
    - apply join_line; [apply words_line, canon_valid; auto|].
      pose proof (words_good (canon a) (canon_valid a V)) as G. eapply Forall_impl; [|exact G]. intros t [H _]. exact H. }
  destruct C as [->|[(t & R & P)|(n & ns & S1 & S2 & NZ)]].
  - injection F as <-. apply lit_value; [reflexivity|exact Logic.I].
  - destruct t as [|x t]; [injection P as <-; injection F as <-; apply lit_value; [reflexivity|exact Logic.I]|].
    destruct (keywords_code (x :: t) c R ltac:(discriminate) P) as (a & V & _ & ->).
    apply (K (numbers a)); [apply sgr_code|apply numbers_small; auto].
  - eapply K; eauto.
Qed.

Lemma describe_line k v t : value_of k v -> match k with KEnum o => options_ok same o | _ => True end ->
  describe_val k v true = Some t -> value_ok t.
Proof.
  intros V O D. destruct k as [| |o| |], v as [b|z|s]; cbn in V; try contradiction; cbn [describe_val] in D; try (injection D as <-).
  - destruct b; (apply lit_value; reflexivity).
  - unfold dec_z. destruct (z <? 0)%Z.
    + split; [change ("-"%char :: dec (Z.to_N (- z))) with ([("-")%char] ++ dec (Z.to_N (- z))); apply line_ok_app;
        [apply reg_line; reflexivity|apply digits_line, dec_digits]|].
      intros c r E. injection E as <- _. intro H. apply is_space_blank in H. discriminate.
    + split; [apply digits_line, dec_digits|]. intros c r E. apply digit_value.
      pose proof (dec_digits (Z.to_N z)) as X. rewrite E in X. cbn in X. apply andb_true_iff in X. tauto.
  - unfold option_name. destruct (z <? 0)%Z eqn:Z0; [lia|].
    destruct (nth_error (options_of o) (Z.to_nat z)) as [n|] eqn:E.
    + rewrite (nth_error_nth _ _ [] E). destruct O as (_ & O2 & _). apply (O2 _ _ E).
    + apply nth_error_None in E. lia.
  - exact V.
  - eapply format_line; eauto.
Qed.
End P.
