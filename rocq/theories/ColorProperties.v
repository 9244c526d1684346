(** C33: colour texts and codes. *)
From Verif Require Import Base ColorModel ColorSpec ColorProofs ColorParse ColorRound.

(** A colour given in words: the text made of its code, whichever form is asked for, is read as the same code. *)
Theorem colors_survive compat v X : ~ raw v -> parse_color v = Some X ->
  exists d, format_color compat X = Some d /\ parse_color d = Some X.
Proof.
  intros NR H. destruct v as [|c v].
  { injection H as <-. exists []. split; reflexivity. }
  destruct (keywords_code (c :: v) X NR ltac:(discriminate) H) as (a & V & P & ->).
  destruct (round compat _ _ (sgr_code a) (numbers_small a V)) as [[A B]|(a' & V' & N & _ & F & R)].
  - eexists. split; eauto.
  - apply numbers_inj in N; auto. subst a'. eexists. split; [exact F|]. rewrite R, plainify_plain; auto.
Qed.
Print Assumptions colors_survive.

(** A colour given as a code (numbers below 2^31, none left out): the text made of it is read as a code that shows the same. *)
Theorem codes_survive compat X ns : sgr_numbers X ns -> Forall (fun n => (n < 2147483648)%N) ns ->
  exists d Y ms, format_color compat X = Some d /\ parse_color d = Some Y /\ sgr_numbers Y ms /\
    forall s, shows s ms = shows s ns.
Proof.
  intros H B. destruct (round compat X ns H B) as [[A R]|(a & V & N & _ & F & R)].
  - exists (lit "sgr " ++ X), X, ns. auto.
  - eexists _, (code (plainify a)), (numbers (plainify a)). split; [exact F|]. split; [exact R|].
    split; [apply sgr_code|]. intro s. rewrite N. apply plainify_shows; auto.
Qed.
Print Assumptions codes_survive.

(** What a terminal shows for a set of attributes. *)
Definition meant (a : attrs) : screen :=
  mks (a_rev a) (match a_bold a with Some b => b | None => false end) (a_ital a) (a_und a)
      (match a_fg a with Some c => c | None => Dflt end) (match a_bg a with Some c => c | None => Dflt end) [].

(** Words are read as a code that shows what the words say, whatever was shown before. *)
Theorem words_read a : valid a -> words a <> [] ->
  exists X ns, parse_color (join [SPC] (words a)) = Some X /\ sgr_numbers X ns /\ (plain a -> X = code a) /\
    forall s, shows s ns = meant a.
Proof.
  intros V NE. exists (code (plainify a)), (numbers (plainify a)).
  split; [apply parse_of_words; auto|]. split; [apply sgr_code|]. split; [intro P; rewrite plainify_plain; auto|].
  intro s. rewrite plainify_shows by auto. rewrite numbers_els. cbn [shows]. change (one s 0) with reset.
  rewrite (shows_els _ _ _ (sorted_els _ V)). destruct a as [[] [b|] [] [] [c|] [d|]]; reflexivity.
Qed.
Print Assumptions words_read.

(** The text made of a code names its attributes and colours in order; in the compatible form a code with an RGB colour is
    written as a code. *)
Theorem codes_described compat a : valid a -> plain a ->
  (compat = false \/ ~ has_rgb a -> format_color compat (code a) = Some (describe a)) /\
  (compat = true /\ has_rgb a -> format_color compat (code a) = Some (lit "sgr " ++ code a)).
Proof.
  intros V P.
  assert (D : join [SPC] (words (canon a)) = describe a).
  { destruct P as [P1 P2]. destruct a as [r o i u f b]. cbn in P1, P2. unfold describe, canon.
    destruct f as [[| |]|]; [congruence| | |]; destruct b as [[| |]|]; try congruence;
      destruct r, o as [[]|], i, u; try reflexivity; rewrite words_pre; cbn; try (destruct bright); reflexivity. }
  split; intro C.
  - assert (F : compat = true -> rgb_free_attrs a).
    { intros ->. destruct C as [|C]; [discriminate|]. split; intros r g b E; apply C; [left|right]; eauto. }
    assert (R := sgr_reads _ _ (sgr_code a) (numbers_small a V)).
    assert (NE := sgr_nonnil _ _ (sgr_code a)). unfold format_color. destruct (code a) as [|x l] eqn:E; [congruence|].
    rewrite (f_loop_code compat _ a R V F), written by auto. f_equal. exact D.
  - destruct C as [-> C].
    destruct (round true _ _ (sgr_code a) (numbers_small a V)) as [[A B]|(a' & V' & N & FR & F & R)]; [exact A|].
    apply numbers_inj in N; auto. subst a'. exfalso. destruct (FR eq_refl) as [F1 F2].
    destruct C as [(r & g & b & E)|(r & g & b & E)]; [eapply F1|eapply F2]; eauto.
Qed.
Print Assumptions codes_described.

(** Refuted: a code with a number left out (which means 0 to a terminal) is changed: the empty field is skipped. *)
Theorem empty_field_refuted :
  parse_color (lit "sgr 0;4;;31") = Some (lit "0;4;;31") /\
  (forall compat, format_color compat (lit "0;4;;31") = Some (lit "underline red")) /\
  parse_color (lit "underline red") = Some (lit "0;4;31") /\
  s_und (shows reset [0;4;0;31]%N) = false /\ s_und (shows reset [0;4;31]%N) = true.
Proof. split; [reflexivity|]. split; [intros []; reflexivity|]. split; [reflexivity|]. split; reflexivity. Qed.
Print Assumptions empty_field_refuted.

(** Refuted: adding a background only changes the background: "bright" alone leaves the default foreground, "bright on red" has
    foreground 37. *)
Theorem background_only_refuted :
  parse_color (lit "bright") = Some (lit "0") /\ parse_color (lit "bright on red") = Some (lit "0;37;41") /\
  sgr_numbers (lit "0") [0%N] /\ sgr_numbers (lit "0;37;41") [0;37;41]%N /\
  s_fg (shows reset [0%N]) = Dflt /\ s_fg (shows reset [0;37;41]%N) = Named false 7.
Proof.
  split; [reflexivity|]. split; [reflexivity|].
  split; [repeat (apply Forall2_cons; [split; [discriminate|split; reflexivity]|]); apply Forall2_nil|].
  split; [repeat (apply Forall2_cons; [split; [discriminate|split; reflexivity]|]); apply Forall2_nil|].
  split; reflexivity.
Qed.
Print Assumptions background_only_refuted.

(** ** Examples *)
Example ex_keywords2 : ~ raw (lit " bri Green  underl on #8F0 ") /\
  parse_color (lit " bri Green  underl on #8F0 ") = Some (lit "0;4;92;48;2;136;255;0") /\
  format_color false (lit "0;4;92;48;2;136;255;0") = Some (lit "underline bright green on #88FF00") /\
  format_color true (lit "0;4;92;48;2;136;255;0") = Some (lit "sgr 0;4;92;48;2;136;255;0").
Proof.
  split; [|split; [reflexivity|split; reflexivity]].
  intros (bl & w & rest & E & F & W & R).
  assert (L : length w = 3 \/ length w = 4) by (destruct W as [W|W]; apply (f_equal (@length _)) in W; rewrite map_length in W; cbn in W; auto).
  destruct bl as [|b0 bl].
  - destruct w as [|a w]; [cbn in L; lia|]. injection E as <- _. destruct W; discriminate.
  - injection E as _ E. destruct bl as [|b1 bl].
    + destruct w as [|a w]; [cbn in L; lia|]. injection E as <- _. destruct W; discriminate.
    + injection E as <- _. pose proof (Forall_inv (Forall_inv_tail F)). discriminate.
Qed.
Example ex_codes : sgr_numbers (lit "0;1;39;49") [0;1;39;49]%N /\ format_color true (lit "0;1;39;49") = Some (lit "bold") /\
  parse_color (lit "bold") = Some (lit "0;1") /\ format_color true (lit "4;31") = Some (lit "sgr 4;31").
Proof.
  split; [repeat (apply Forall2_cons; [split; [discriminate|split; reflexivity]|]); apply Forall2_nil|].
  split; [reflexivity|]. split; reflexivity.
Qed.
Definition ex_a : attrs := mka true (Some false) true true (Some (Rgb 1 2 255)) (Some (Named true 3)).
Example ex_words : valid ex_a /\ plain ex_a /\ has_rgb ex_a /\
  join [SPC] (words ex_a) = lit "reverse nobold italic underline #0102FF on bright yellow" /\ code ex_a = lit "0;7;22;3;4;38;2;1;2;255;103".
Proof.
  split; [split; intros c E; injection E as <-; cbn; lia|]. split; [split; discriminate|].
  split; [left; eexists _, _, _; reflexivity|]. split; reflexivity.
Qed.
