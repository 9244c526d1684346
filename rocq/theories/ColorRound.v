(** Proofs about colour texts: going round. *)
From Verif Require Import Base ColorModel ColorSpec ColorProofs ColorParse.
Arguments dec : simpl never.
Arguments Z.div : simpl never. Arguments Z.modulo : simpl never. Arguments N.div : simpl never. Arguments N.modulo : simpl never.
Arguments Z.mul : simpl never.

(** ** What the numbers show *)
Definition eff (s : screen) (e : el) : screen :=
  match e with
  | ERev => mks true (s_bold s) (s_ital s) (s_und s) (s_fg s) (s_bg s) (s_other s)
  | EBold b => mks (s_rev s) b (s_ital s) (s_und s) (s_fg s) (s_bg s) (s_other s)
  | EItal => mks (s_rev s) (s_bold s) true (s_und s) (s_fg s) (s_bg s) (s_other s)
  | EUnd => mks (s_rev s) (s_bold s) (s_ital s) true (s_fg s) (s_bg s) (s_other s)
  | EFg c => set_fg s c
  | EBg c => set_bg s c
  end.
Lemma shows_el e s rest : valid_el e -> shows s (el_nums e ++ rest) = shows (eff s e) rest.
Proof.
  intro V. destruct e as [|[]| | |c|c]; try reflexivity.
  - destruct c as [|b i|r g b]; try reflexivity. cbn in V.
    do 8 (destruct i as [|i]; [destruct b; reflexivity|]). lia.
  - destruct c as [|b i|r g b]; try reflexivity. cbn in V.
    do 8 (destruct i as [|i]; [destruct b; reflexivity|]). lia.
Qed.
Lemma shows_els es : forall s k, sorted k es -> shows s (flat_map el_nums es) = fold_left eff es s.
Proof.
  induction es as [|e es IH]; intros s k H; [reflexivity|]. cbn [sorted] in H. destruct H as (_ & V & H).
  cbn [flat_map fold_left]. rewrite shows_el by auto. eapply IH; eauto.
Qed.
Lemma plainify_valid a : valid a -> valid (plainify a).
Proof.
  intros [V1 V2]. split; cbn; intros c E.
  - apply V1. destruct (a_fg a) as [[| |]|]; cbn in E; congruence.
  - apply V2. destruct (a_bg a) as [[| |]|]; cbn in E; congruence.
Qed.
Lemma plainify_shows a s : valid a -> shows s (numbers (plainify a)) = shows s (numbers a).
Proof.
  intro V. rewrite !numbers_els. cbn [shows]. change (one s 0) with reset.
  rewrite (shows_els _ _ _ (sorted_els _ V)), (shows_els _ _ _ (sorted_els _ (plainify_valid _ V))).
  destruct a as [[] [b|] [] [] [[| |]|] [[| |]|]]; reflexivity.
Qed.
Lemma plainify_is_plain a : plain (plainify a).
Proof. destruct a as [r o i u [[| |]|] [[| |]|]]; split; cbn; congruence. Qed.

(** ** What keywords give *)
Lemma parsehex_range t : (parsehex t < 16777216)%Z.
Proof.
  unfold parsehex. destruct t as [|c t]; [lia|]. destruct (Ascii.eqb c "#"); cbn [andb]; [|lia].
  assert (D : forall c, (parsehexdigit c < 16)%Z).
  { clear. intro c. unfold parsehexdigit. cbv zeta.
    repeat match goal with |- context [if ?x then _ else _] => destruct x eqn:?; [lia|] end. lia. }
  cbn [length]. destruct (Nat.eqb_spec (S (length t)) 4) as [L|L]; cbn [orb].
  - do 3 (destruct t as [|? t]; [discriminate|]). destruct t; [|discriminate].
    cbn [parsehex_loop].
    repeat match goal with |- context [parsehexdigit ?x] =>
      let h := fresh "h" in let E := fresh in pose proof (D x) as E; set (h := parsehexdigit x) in *; clearbody h;
      cbv zeta; destruct (Z.ltb_spec h 0); [lia|] end. lia.
  - destruct (Nat.eqb_spec (S (length t)) 7) as [L7|L7]; [|lia].
    do 6 (destruct t as [|? t]; [discriminate|]). destruct t; [|discriminate].
    cbn [parsehex_loop].
    repeat match goal with |- context [parsehexdigit ?x] =>
      let h := fresh "h" in let E := fresh in pose proof (D x) as E; set (h := parsehexdigit x) in *; clearbody h;
      cbv zeta; destruct (Z.ltb_spec h 0); [lia|] end. lia.
Qed.

Definition p_ok (p : pstate) : Prop :=
  (-1 <= p_fg p)%Z /\ (-1 <= p_bg p)%Z /\
  (p_fg p < (if p_fg_hex p then 16777216 else if p_on p then 16 else 8))%Z /\
  (p_bg p < (if p_bg_hex p then 16777216 else 8))%Z.

Lemma find_name_range t i : find_name t color_names 0 = Some i -> (0 <= i < 8)%Z.
Proof.
  unfold color_names. cbn [find_name]. 
  repeat match goal with |- context [if ?x then _ else _] => destruct x; [intro H; injection H as <-; lia|] end. discriminate.
Qed.

Lemma p_step_ok p t q : p_ok p -> p_step p t = Some q -> p_ok q.
Proof.
  intros (O1 & O2 & O3 & O4). destruct p as [fg bg fh bh bo br un it re on sd]. unfold p_step.
  assert (HR := parsehex_range t). assert (FR := find_name_range t).
  unfold p_color, p_hex, set_color, p_ok in *. cbn [p_fg p_bg p_fg_hex p_bg_hex p_bold p_bright p_underline p_italic p_reverse p_on p_saw_default] in *.
  cbv zeta. destruct on, fh, bh;
  (repeat match goal with |- (if ?x then _ else _) = Some q -> _ => destruct x eqn:? end; intro H; try discriminate;
    try (injection H as <-; cbn in *; repeat match goal with |- context [if ?x then _ else _] => destruct x eqn:? end; cbn in *; lia);
  (destruct (find_name t color_names 0) as [i|] eqn:EF; [|discriminate]; specialize (FR i eq_refl); cbn in *;
   repeat match type of H with (if ?x then _ else _) = _ => destruct x eqn:? end; try discriminate; injection H as <-; cbn in *; lia)).
Qed.

Lemma p_run_ok ts : forall p q, p_ok p -> p_run p ts = Some q -> p_ok q.
Proof.
  induction ts as [|t ts IH]; intros p q O H; cbn [p_run] in H; [congruence|].
  destruct (p_step p t) as [p'|] eqn:E; [|discriminate]. exact (IH p' q (p_step_ok _ _ _ O E) H).
Qed.

(** A number back to a colour. *)
Definition z_col (v : Z) (hex : bool) : option col :=
  if (v <? 0)%Z then None
  else if hex then Some (Rgb (Z.to_N (v / 65536)) (Z.to_N ((v / 256) mod 256)) (Z.to_N (v mod 256)))
  else Some (Named (8 <=? v)%Z (Z.to_nat (if (8 <=? v)%Z then v - 8 else v))).
Lemma z_col_ok (v : Z) (hex : bool) : (-1 <= v)%Z -> (v < (if hex then 16777216 else 16))%Z ->
  col_v (z_col v hex) = v /\ (v = -1 \/ col_h (z_col v hex) = hex)%Z /\ (forall c, z_col v hex = Some c -> valid_col c /\ c <> Dflt).
Proof.
  intros A B. unfold z_col. destruct (Z.ltb_spec v 0) as [L|L].
  - split; [cbn; lia|]. split; [left; lia|discriminate].
  - destruct hex.
    + split; [cbn; lia|]. split; [right; reflexivity|]. intros c E. injection E as <-. split; [cbn; lia|discriminate].
    + destruct (Z.leb_spec 8 v); (split; [cbn; lia|]; split; [right; reflexivity|]; intros c E; injection E as <-; split; [cbn; lia|discriminate]).
Qed.

Lemma code_of_run p : p_ok p -> exists a, valid a /\ plain a /\ p_code p = code a.
Proof.
  intros (O1 & O2 & O3 & O4). unfold p_code.
  set (q := if (0 <=? p_color p)%Z && negb (p_hex p) && (0 <? p_bright p)%Z then set_color p (p_color p + 8) (p_hex p) else p).
  assert (Q : (-1 <= p_fg q /\ p_fg q < (if p_fg_hex q then 16777216 else 16) /\ -1 <= p_bg q /\ p_bg q < (if p_bg_hex q then 16777216 else 16))%Z).
  { subst q. destruct p as [fg bg fh bh bo br un it re on sd]. unfold p_color, p_hex, set_color in *. cbn in *.
    destruct on, fh, bh; cbn; repeat match goal with |- context [if ?x then _ else _] => destruct x eqn:?; cbn end; try lia. }
  clearbody q. destruct Q as (Q1 & Q2 & Q3 & Q4). cbv zeta.
  destruct (z_col_ok _ _ Q1 Q2) as (A1 & A2 & A3). destruct (z_col_ok _ _ Q3 Q4) as (B1 & B2 & B3).
  exists (mka (p_reverse q) (if (0 <? p_bold q)%Z then Some true else if (p_bold q =? 0)%Z then Some false else None)
              (p_italic q) (0 <? p_underline q)%Z (z_col (p_fg q) (p_fg_hex q)) (z_col (p_bg q) (p_bg_hex q))).
  split; [split; cbn; intros c E; [apply A3|apply B3]; auto|].
  split; [split; cbn; intro E; [apply A3 in E|apply B3 in E]; tauto|].
  rewrite code_semis. cbn [a_rev a_bold a_ital a_und a_fg a_bg].
  assert (CF : color_code 30 (p_fg q) (p_fg_hex q) = semis (opt (z_col (p_fg q) (p_fg_hex q)) (col_numbers 30))).
  { replace (opt (z_col (p_fg q) (p_fg_hex q)) (col_numbers 30)) with (opt (dropd (z_col (p_fg q) (p_fg_hex q))) (col_numbers 30)).
    - rewrite <- color_code_eq; [|lia|intros x E; apply A3; auto]. rewrite A1. destruct A2 as [->| ->]; reflexivity.
    - destruct (z_col (p_fg q) (p_fg_hex q)) as [[| |]|]; auto. exfalso. apply (A3 Dflt); auto. }
  assert (CB : color_code 40 (p_bg q) (p_bg_hex q) = semis (opt (z_col (p_bg q) (p_bg_hex q)) (col_numbers 40))).
  { replace (opt (z_col (p_bg q) (p_bg_hex q)) (col_numbers 40)) with (opt (dropd (z_col (p_bg q) (p_bg_hex q))) (col_numbers 40)).
    - rewrite <- color_code_eq; [|lia|intros x E; apply B3; auto]. rewrite B1. destruct B2 as [->| ->]; reflexivity.
    - destruct (z_col (p_bg q) (p_bg_hex q)) as [[| |]|]; auto. exfalso. apply (B3 Dflt); auto. }
  rewrite CF, CB. f_equal. f_equal. f_equal.
  destruct (0 <? p_bold q)%Z; [reflexivity|]. destruct (p_bold q =? 0)%Z; reflexivity.
Qed.

(** ** The first word *)
Lemma pieces_from_head l : forall cur t r, pieces_from SPC l cur = t :: r ->
  match cur with
  | [] => exists blanks rest, l = blanks ++ t ++ rest /\ Forall (fun c => c = SPC) blanks /\ (rest = [] \/ exists x, rest = SPC :: x)
  | _ => exists u rest, t = cur ++ u /\ l = u ++ rest /\ (rest = [] \/ exists x, rest = SPC :: x)
  end.
Proof.
  induction l as [|c l IH]; intros cur t r H; cbn [pieces_from] in H.
  - destruct cur; cbn in H; [discriminate|]. injection H as <- _. exists [], []. rewrite app_nil_r. auto.
  - destruct (Ascii.eqb_spec c SPC) as [->|N].
    + destruct cur as [|x cur]; cbn [flush app] in H.
      * apply IH in H. cbn in H. destruct H as (bl & rest & -> & F & R). exists (SPC :: bl), rest.
        split; [reflexivity|]. split; auto.
      * injection H as <- _. exists [], (SPC :: l). rewrite app_nil_r. split; auto. split; auto. right. eauto.
    + apply IH in H. destruct cur as [|x cur]; cbn [app] in H.
      * destruct H as (u & rest & -> & -> & R). exists [], rest. auto.
      * destruct H as (u & rest & -> & -> & R). exists (c :: u), rest. rewrite <- app_comm_cons, <- app_assoc. auto.
Qed.

Lemma not_raw_head v t r : ~ raw v -> pieces SPC v = t :: r -> iequal t (lit "ansi") || iequal t (lit "sgr") = false.
Proof.
  intros NR H. apply pieces_from_head in H. destruct H as (bl & rest & -> & F & R).
  apply orb_false_iff. split.
  - destruct (iequal t (lit "ansi")) eqn:E; auto. exfalso. apply NR. apply eqb_bytes_eq in E.
    exists bl, t, rest. split; auto.
  - destruct (iequal t (lit "sgr")) eqn:E; auto. exfalso. apply NR. apply eqb_bytes_eq in E.
    exists bl, t, rest. split; auto.
Qed.

Lemma keywords_code v X : ~ raw v -> v <> [] -> parse_color v = Some X -> exists a, valid a /\ plain a /\ X = code a.
Proof.
  intros NR NE H. unfold parse_color in H. destruct v as [|c v']; [congruence|]. set (v := c :: v') in *.
  assert (I0 : p_ok p_init) by (unfold p_ok; cbn; lia).
  unfold parse_words in H. destruct (pieces SPC v) as [|t r] eqn:P.
  - injection H as <-. apply code_of_run; auto.
  - rewrite (not_raw_head v t r NR P) in H. destruct (p_run p_init (t :: r)) as [p|] eqn:R; [|discriminate].
    cbn in H. injection H as <-. apply code_of_run. eapply p_run_ok; eauto.
Qed.

(** ** Going round *)
Lemma parse_sgr X ns : sgr_numbers X ns -> parse_color (lit "sgr " ++ X) = Some X.
Proof.
  intro H.
  assert (G : forallb (fun c => negb (Ascii.eqb c SPC)) X = true /\ X <> []).
  { unfold sgr_numbers in H. split.
    - assert (K : forall l cur ns, Forall2 (fun f n => f <> [] /\ forallb is_digit f = true /\ undec 0 f = n) (fields_from l cur) ns ->
        forallb (fun c => negb (Ascii.eqb c SPC)) (cur ++ l) = true).
      { clear. induction l as [|c l IH]; intros cur ns H; cbn [fields_from] in H.
        - inversion H as [|f n fs ns' (A & B & C) F]; subst. rewrite app_nil_r. apply digits_no; auto.
        - destruct (Ascii.eqb_spec c ";") as [->|NC].
          + inversion H as [|f n fs ns' (A & B & C) F]; subst. apply IH in F. rewrite forallb_app, (digits_no SPC cur) by auto. cbn in F |- *. auto.
          + apply IH in H. rewrite <- app_assoc in H. exact H. }
      exact (K X [] ns H).
    - intros ->. cbn in H. inversion H as [|f n fs ns' (A & B & C) F]; congruence. }
  destruct G as [G NE]. unfold parse_color. cbn [lit list_ascii_of_string app].
  change ("s"%char :: "g"%char :: "r"%char :: " "%char :: X) with (join [SPC] [lit "sgr"; X]).
  rewrite pieces_join; [reflexivity|]. apply Forall_cons; [split; [discriminate|reflexivity]|]. apply Forall_cons; [split; auto|apply Forall_nil].
Qed.

Lemma sgr_nonnil X ns : sgr_numbers X ns -> X <> [].
Proof. intros H ->. inversion H as [|f n fs ns' (A & B & C) F]; congruence. Qed.

Lemma round compat X ns : sgr_numbers X ns -> Forall (fun n => (n < 2147483648)%N) ns ->
  (format_color compat X = Some (lit "sgr " ++ X) /\ parse_color (lit "sgr " ++ X) = Some X) \/
  exists a, valid a /\ ns = numbers a /\ (compat = true -> rgb_free_attrs a) /\ format_color compat X = Some (join [SPC] (words (canon a))) /\
            parse_color (join [SPC] (words (canon a))) = Some (code (plainify a)).
Proof.
  intros H B. assert (R := sgr_reads X ns H B). assert (NE := sgr_nonnil X ns H).
  assert (PN : pieces ";" X <> []).
  { intro E. rewrite E in R. inversion R; subst. inversion H as [E2|]. destruct X; [congruence|].
    cbn [fields_from] in E2. destruct (Ascii.eqb a ";"); [discriminate|].
    assert (K : forall l cur, fields_from l cur <> []) by (clear; induction l as [|c l IH]; intro cur; cbn; [discriminate|destruct (Ascii.eqb c ";"); [discriminate|apply IH]]).
    eapply K; eauto. }
  unfold format_color. destruct X as [|x X]; [congruence|].
  destruct (f_loop_start compat _ ns R PN) as [E|(a & V & N & FR & E)].
  - left. rewrite E. split; [reflexivity|]. eapply parse_sgr; eauto.
  - right. exists a. split; auto. split; auto. split; auto. rewrite E, written by auto. split; [reflexivity|].
    rewrite parse_of_words; [|apply canon_valid; auto|apply canon_words]. rewrite canon_plainify. reflexivity.
Qed.
