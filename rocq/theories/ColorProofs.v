(** Proofs about colour texts. *)
From Verif Require Import Base ColorModel ColorSpec.
Arguments dec : simpl never.
Arguments Z.div : simpl never. Arguments Z.modulo : simpl never. Arguments N.div : simpl never. Arguments N.modulo : simpl never.
Arguments Z.mul : simpl never. Arguments Z.add : simpl never. Arguments Z.sub : simpl never. Arguments N.add : simpl never.
Arguments N.mul : simpl never. Arguments Nat.ltb : simpl never. Arguments Nat.leb : simpl never. Arguments app : simpl nomatch.

(** ** Splitting *)
Definition no (d : byte) (t : bytes) : Prop := t <> [] /\ forallb (fun c => negb (Ascii.eqb c d)) t = true.

Lemma pieces_run d w r cur : forallb (fun c => negb (Ascii.eqb c d)) w = true ->
  pieces_from d (w ++ r) cur = pieces_from d r (cur ++ w).
Proof.
  revert cur; induction w as [|c w IH]; intros cur H; cbn [app].
  - rewrite app_nil_r; reflexivity.
  - cbn [forallb] in H. apply andb_true_iff in H as [H1 H2]. cbn [pieces_from].
    destruct (Ascii.eqb c d); [discriminate|]. rewrite IH by auto. rewrite <- app_assoc. reflexivity.
Qed.

Lemma pieces_join d ts : Forall (no d) ts -> pieces d (join [d] ts) = ts.
Proof.
  unfold pieces. intro F. induction ts as [|t ts IH]; [reflexivity|].
  pose proof (Forall_inv F) as [N1 N2]. apply Forall_inv_tail in F.
  destruct ts as [|u ts].
  - cbn [join]. rewrite <- (app_nil_r t) at 1. rewrite pieces_run by auto. cbn [pieces_from app].
    destruct t; [congruence|reflexivity].
  - change (join [d] (t :: u :: ts)) with (t ++ [d] ++ join [d] (u :: ts)).
    rewrite pieces_run by auto. cbn [app pieces_from]. rewrite Ascii.eqb_refl.
    rewrite (IH F). destruct t; [congruence|reflexivity].
Qed.

Lemma pieces_fields l cur : pieces_from ";" l cur = filter (fun f => match f with [] => false | _ => true end) (fields_from l cur).
Proof.
  revert cur; induction l as [|c l IH]; intro cur; cbn [pieces_from fields_from].
  - destruct cur; reflexivity.
  - destruct (Ascii.eqb c ";"); [|apply IH]. rewrite IH. cbn [filter]. destruct cur; reflexivity.
Qed.

Lemma fields_join ts : Forall (no ";"%char) ts -> ts <> [] -> fields_from (join (lit ";") ts) [] = ts.
Proof.
  assert (R : forall w r cur, forallb (fun c => negb (Ascii.eqb c ";")) w = true ->
    fields_from (w ++ r) cur = fields_from r (cur ++ w)).
  { induction w as [|c w IH]; intros r cur H; cbn [app]; [rewrite app_nil_r; reflexivity|].
    cbn [forallb] in H. apply andb_true_iff in H as [H1 H2]. cbn [fields_from].
    destruct (Ascii.eqb c ";"); [discriminate|]. rewrite IH by auto. rewrite <- app_assoc. reflexivity. }
  intros F NE. induction ts as [|t ts IH]; [congruence|].
  pose proof (Forall_inv F) as [N1 N2]. apply Forall_inv_tail in F.
  destruct ts as [|u ts].
  - cbn [join]. rewrite <- (app_nil_r t) at 1. rewrite R by auto. reflexivity.
  - change (join (lit ";") (t :: u :: ts)) with (t ++ ";"%char :: join (lit ";") (u :: ts)).
    rewrite R by auto. cbn [fields_from]. rewrite Ascii.eqb_refl. rewrite IH by (auto; discriminate). reflexivity.
Qed.

Lemma digits_no (d : byte) f : is_digit d = false -> forallb is_digit f = true -> forallb (fun c => negb (Ascii.eqb c d)) f = true.
Proof.
  intro D. induction f as [|c f IH]; cbn [forallb]; auto. intro H. apply andb_true_iff in H as [H1 H2].
  rewrite IH by auto. destruct (Ascii.eqb_spec c d) as [->|]; [congruence|reflexivity].
Qed.
Lemma dec_no d n : is_digit d = false -> no d (dec n).
Proof. intro D. split; [apply dec_nonnil|apply digits_no; [auto|apply dec_digits]]. Qed.

(** ** Numbers *)
Definition reads (f : bytes) (n : N) : Prop := int_from f 0 = Some (Z.of_N n).

Lemma undec_mono f : forall a, (a <= undec a f)%N.
Proof. induction f as [|c f IH]; intro a; cbn [undec]; [lia|]. specialize (IH (a * 10 + (N_of_ascii c - 48))%N). lia. Qed.

Lemma int_from_digits f : forall a, forallb is_digit f = true -> (undec a f < 2147483648)%N ->
  int_from f (Z.of_N a) = Some (Z.of_N (undec a f)).
Proof.
  induction f as [|c f IH]; intros a D B; cbn [int_from undec] in *; [reflexivity|].
  cbn [forallb] in D. apply andb_true_iff in D as [D1 D2]. rewrite D1. cbv zeta.
  assert (M := undec_mono f (a * 10 + (N_of_ascii c - 48))).
  replace (Z.of_N a * 10 + Z.of_N (N_of_ascii c - 48))%Z with (Z.of_N (a * 10 + (N_of_ascii c - 48))) by lia.
  destruct (Z.ltb_spec 2147483647 (Z.of_N (a * 10 + (N_of_ascii c - 48)))); [lia|]. apply IH; auto.
Qed.

Lemma sgr_reads l ns : sgr_numbers l ns -> Forall (fun n => (n < 2147483648)%N) ns ->
  Forall2 reads (pieces ";" l) ns.
Proof.
  unfold sgr_numbers, pieces. rewrite pieces_fields. generalize (fields_from l []).
  intros fs H. induction H as [|f n fs ns (A1 & A2 & A3) H IH]; intro B; cbn [filter]; [constructor|].
  destruct f as [|c f]; [congruence|]. pose proof (Forall_inv B) as B1. cbn beta in B1.
  constructor; [|apply IH; exact (Forall_inv_tail B)].
  unfold reads. rewrite <- A3 in B1 |- *. apply (int_from_digits (c :: f) 0); auto.
Qed.

Lemma sgr_code a : sgr_numbers (code a) (numbers a).
Proof.
  unfold sgr_numbers, code. rewrite fields_join.
  - induction (numbers a) as [|n ns IH]; cbn [map]; constructor; auto.
    split; [apply dec_nonnil|]. split; [apply dec_digits|apply undec_dec].
  - apply Forall_forall. intros x H. apply in_map_iff in H as (n & <- & _). apply dec_no; reflexivity.
  - discriminate.
Qed.

(** ** The elements of a code *)
Inductive el := ERev | EBold (b : bool) | EItal | EUnd | EFg (c : col) | EBg (c : col).
Definition stage (e : el) : nat := match e with ERev => 1 | EBold _ => 2 | EItal => 3 | EUnd => 4 | EFg _ => 5 | EBg _ => 6 end.
Definition el_nums (e : el) : list N :=
  match e with ERev => [7] | EBold b => [if b then 1 else 22] | EItal => [3] | EUnd => [4]
             | EFg c => col_numbers 30 c | EBg c => col_numbers 40 c end%N.
Definition is_fg (e : el) : bool := match e with EFg _ => true | _ => false end.
Definition el_toks (any : bool) (e : el) : list bytes :=
  match e with
  | ERev => [lit "reverse"] | EBold b => [if b then lit "bold" else lit "nobold"] | EItal => [lit "italic"] | EUnd => [lit "underline"]
  | EFg c => col_words c
  | EBg Dflt => [lit "on"; lit "default"]
  | EBg c => (if any then [] else [lit "default"]) ++ lit "on" :: col_words c
  end.
Fixpoint toks (any : bool) (es : list el) : list bytes :=
  match es with [] => [] | e :: r => el_toks any e ++ toks (any || is_fg e) r end.
Definition valid_el (e : el) : Prop := match e with EFg c => valid_col c | EBg c => valid_col c | _ => True end.
Fixpoint sorted (k : nat) (es : list el) : Prop :=
  match es with [] => True | e :: r => k <= stage e /\ valid_el e /\ sorted (S (stage e)) r end.
Definition els (a : attrs) : list el :=
  (if a_rev a then [ERev] else []) ++ opt (a_bold a) (fun b => [EBold b]) ++ (if a_ital a then [EItal] else []) ++
  (if a_und a then [EUnd] else []) ++ opt (a_fg a) (fun c => [EFg c]) ++ opt (a_bg a) (fun c => [EBg c]).
Definition text (ts : list bytes) : bytes := concat (map (fun t => t ++ [SPC]) ts).

Lemma text_app a b : text (a ++ b) = text a ++ text b.
Proof. unfold text. rewrite map_app, concat_app. reflexivity. Qed.
Lemma text_join ts : ts <> [] -> text ts = join [SPC] ts ++ [SPC].
Proof.
  induction ts as [|t ts IH]; [congruence|]. intros _. destruct ts as [|u ts].
  - unfold text. cbn. rewrite app_nil_r. reflexivity.
  - change (text (t :: u :: ts)) with ((t ++ [SPC]) ++ text (u :: ts)). rewrite IH by discriminate.
    change (join [SPC] (t :: u :: ts)) with (t ++ [SPC] ++ join [SPC] (u :: ts)). rewrite <- !app_assoc. reflexivity.
Qed.

Lemma numbers_els a : numbers a = 0%N :: flat_map el_nums (els a).
Proof. destruct a as [[] [[]|] [] [] [f|] [b|]]; unfold numbers, els; cbn; rewrite ?app_nil_r; reflexivity. Qed.

Lemma sorted_els a : valid a -> sorted 1 (els a).
Proof.
  intros [V1 V2]. destruct a as [r o i u f b]; cbn in V1, V2.
  destruct r, o as [[]|], i, u, f as [f|], b as [b|]; unfold els; cbn;
  intuition (auto; try lia).
Qed.

Lemma els_sorted es : sorted 1 es -> exists a, valid a /\ es = els a.
Proof.
  intro H.
  assert (A : exists r es1, es = (if r : bool then [ERev] else []) ++ es1 /\ sorted 2 es1).
  { destruct es as [|e es]; [exists false, []; cbn; auto|]. cbn in H.
    destruct e; try (exists false; eexists; split; [reflexivity|]; cbn in *; intuition lia).
    exists true, es. cbn in *. intuition. }
  destruct A as (r & es1 & -> & A). clear H.
  assert (B : exists o es2, es1 = opt o (fun b => [EBold b]) ++ es2 /\ sorted 3 es2).
  { destruct es1 as [|e es]; [exists None, []; cbn; auto|]. cbn in A.
    destruct e; try (exists None; eexists; split; [reflexivity|]; cbn in *; intuition lia).
    exists (Some b), es. cbn in *. intuition. }
  destruct B as (o & es2 & -> & B). clear A.
  assert (C : exists i es1, es2 = (if i : bool then [EItal] else []) ++ es1 /\ sorted 4 es1).
  { destruct es2 as [|e es]; [exists false, []; cbn; auto|]. cbn in B.
    destruct e; try (exists false; eexists; split; [reflexivity|]; cbn in *; intuition lia).
    exists true, es. cbn in *. intuition. }
  destruct C as (i & es3 & -> & C). clear B.
  assert (D : exists u es1, es3 = (if u : bool then [EUnd] else []) ++ es1 /\ sorted 5 es1).
  { destruct es3 as [|e es]; [exists false, []; cbn; auto|]. cbn in C.
    destruct e; try (exists false; eexists; split; [reflexivity|]; cbn in *; intuition lia).
    exists true, es. cbn in *. intuition. }
  destruct D as (u & es4 & -> & D). clear C.
  assert (E : exists f es1, es4 = opt f (fun c => [EFg c]) ++ es1 /\ sorted 6 es1 /\ (forall c, f = Some c -> valid_col c)).
  { destruct es4 as [|e es]; [exists None, []; cbn; intuition discriminate|]. cbn in D.
    destruct e; try (exists None; eexists; split; [reflexivity|]; cbn in *; solve [intuition (try lia; try discriminate)]).
    exists (Some c), es. cbn in *. intuition congruence. }
  destruct E as (f & es5 & -> & E & VF). clear D.
  assert (G : exists b, es5 = opt b (fun c => [EBg c]) /\ (forall c, b = Some c -> valid_col c)).
  { destruct es5 as [|e es]; [exists None; cbn; intuition discriminate|]. cbn in E.
    destruct E as (E1 & E2 & E3). destruct e; cbn in E1; try lia.
    destruct es as [|e' es]; [|cbn in E3; destruct e'; cbn in E3; lia].
    exists (Some c). cbn in *. intuition congruence. }
  destruct G as (b & -> & VB).
  exists (mka r o i u f b). split; [split; auto|]. unfold els; cbn. reflexivity.
Qed.

Lemma el_inj e e' x x' : valid_el e -> valid_el e' -> el_nums e ++ x = el_nums e' ++ x' -> e = e' /\ x = x'.
Proof.
  intros V V' H.
  destruct e as [|[]| | |[|[] i|r g b]|[|[] i|r g b]], e' as [|[]| | |[|[] i'|r' g' b']|[|[] i'|r' g' b']];
    cbn in *; injection H; intros;
    try (split; congruence); try (exfalso; lia);
    (assert (i = i') by lia; split; congruence).
Qed.

Lemma els_inj es : forall es' k k', sorted k es -> sorted k' es' -> flat_map el_nums es = flat_map el_nums es' -> es = es'.
Proof.
  induction es as [|e es IH]; intros [|e' es'] k k' S1 S2 H; cbn [flat_map] in H; auto.
  - destruct e' as [|[]| | |[]|[]]; discriminate.
  - destruct e as [|[]| | |[]|[]]; discriminate.
  - cbn in S1, S2. destruct S1 as (_ & V1 & S1), S2 as (_ & V2 & S2).
    destruct (el_inj _ _ _ _ V1 V2 H) as [-> H']. f_equal. eapply IH; eauto.
Qed.

Definition put (e : el) (a : attrs) : attrs :=
  match e with
  | ERev => mka true (a_bold a) (a_ital a) (a_und a) (a_fg a) (a_bg a)
  | EBold b => mka (a_rev a) (Some b) (a_ital a) (a_und a) (a_fg a) (a_bg a)
  | EItal => mka (a_rev a) (a_bold a) true (a_und a) (a_fg a) (a_bg a)
  | EUnd => mka (a_rev a) (a_bold a) (a_ital a) true (a_fg a) (a_bg a)
  | EFg c => mka (a_rev a) (a_bold a) (a_ital a) (a_und a) (Some c) (a_bg a)
  | EBg c => mka (a_rev a) (a_bold a) (a_ital a) (a_und a) (a_fg a) (Some c)
  end.
Lemma els_put a : fold_right put (mka false None false false None None) (els a) = a.
Proof. destruct a as [[] [b|] [] [] [f|] [g|]]; reflexivity. Qed.
Lemma els_attrs a b : els a = els b -> a = b.
Proof. intro H. rewrite <- (els_put a), <- (els_put b), H. reflexivity. Qed.

Lemma numbers_inj a b : valid a -> valid b -> numbers a = numbers b -> a = b.
Proof.
  intros Va Vb H. rewrite !numbers_els in H. injection H as H. apply els_attrs.
  eapply els_inj; eauto using sorted_els.
Qed.

Lemma numbers_small a : valid a -> Forall (fun n => (n < 2147483648)%N) (numbers a).
Proof.
  intros [V1 V2]. assert (C : forall base c, (base <= 40)%N -> valid_col c -> Forall (fun n => (n < 2147483648)%N) (col_numbers base c)).
  { intros base [|b i|r g b] H V; cbn in *; repeat apply Forall_cons; try apply Forall_nil; try lia.
    destruct b; lia. }
  unfold numbers. apply Forall_cons; [lia|].
  repeat (apply Forall_app; split); destruct a as [r o i u f b]; cbn in *.
  - destruct r; repeat apply Forall_cons; try apply Forall_nil; lia.
  - destruct o as [[]|]; cbn; repeat apply Forall_cons; try apply Forall_nil; lia.
  - destruct i; repeat apply Forall_cons; try apply Forall_nil; lia.
  - destruct u; repeat apply Forall_cons; try apply Forall_nil; lia.
  - destruct f; cbn; [apply C; auto; lia|apply Forall_nil].
  - destruct b; cbn; [apply C; auto; lia|apply Forall_nil].
Qed.

(** ** The loop of format_color *)
Lemma hexdigit_eq n : (n < 16)%N -> hexdigit (Z.of_N n) = hex_digit n.
Proof.
  intro H. assert (E : n = N.of_nat (N.to_nat n)) by lia. assert (L : N.to_nat n < 16) by lia.
  rewrite E. generalize dependent (N.to_nat n). clear. intros k _ L.
  do 16 (destruct k as [|k]; [reflexivity|]). lia.
Qed.
Lemma hex2_eq n : (n < 256)%N -> hex2 (Z.of_N n) = hex_byte n.
Proof.
  intro H. unfold hex2, hex_byte.
  rewrite <- !hexdigit_eq by lia.
  replace (Z.of_N n / 16)%Z with (Z.of_N (n / 16)) by lia. replace (Z.of_N n mod 16)%Z with (Z.of_N (n mod 16)) by lia. reflexivity.
Qed.
Lemma name_eq i : i < 8 -> name_of (Z.of_nat i) = colour_word i.
Proof. intro H. do 8 (destruct i as [|i]; [reflexivity|]). lia. Qed.

Ltac ev H := match type of H with _ = Some ?z => let v := eval vm_compute in z in change z with v in H end.

Lemma f_loop_cons compat f r k out any : f_loop compat (f :: r) k out any =
  ltac:(let t := eval cbn [f_loop] in (f_loop compat (f :: r) k out any) in exact t).
Proof. reflexivity. Qed.

Lemma f_loop_accepts compat : forall es fs k out any, sorted k es -> 1 <= k -> k <= 7 ->
  (compat = true -> Forall (fun e => match e with EFg (Rgb _ _ _) | EBg (Rgb _ _ _) => False | _ => True end) es) ->
  Forall2 reads fs (flat_map el_nums es) ->
  f_loop compat fs k out any = Some (Some (out ++ text (toks any es))).
Proof.
  induction es as [|e es IH]; intros fs k out any SO K1 K7 CO F; cbn [flat_map] in F.
  - inversion F; subst. cbn. rewrite app_nil_r. reflexivity.
  - cbn [sorted] in SO. destruct SO as (ST & V & SO).
    assert (CO' : compat = true -> Forall (fun e => match e with EFg (Rgb _ _ _) | EBg (Rgb _ _ _) => False | _ => True end) es)
      by (intro C; exact (Forall_inv_tail (CO C))).
    assert (IH' : forall fs out any, Forall2 reads fs (flat_map el_nums es) ->
       f_loop compat fs (S (stage e)) out any = Some (Some (out ++ text (toks any es)))).
    { intros. apply IH; auto; destruct e; cbn; lia. }
    assert (L6 : Nat.leb 7 k = false) by (apply Nat.leb_gt; destruct e; cbn in ST; lia).
    assert (L0 : Nat.eqb k 0 = false) by (apply Nat.eqb_neq; lia).
    assert (LT : Nat.ltb (stage e) k = false) by (apply Nat.ltb_ge; lia).
    cbn [toks]. rewrite text_app.
    destruct e as [|bo| | |c|c]; cbn [el_nums] in F; cbn [stage] in *.
    + cbn [app] in F. inversion F as [|f0 n0 fs0 ns0 R1 F1]; subst. unfold reads in R1.
      rewrite f_loop_cons. rewrite R1, L6, L0. cbn. rewrite LT. rewrite IH' by auto. rewrite <- !app_assoc. rewrite orb_false_r. reflexivity.
    + cbn [app] in F. inversion F as [|f0 n0 fs0 ns0 R1 F1]; subst. unfold reads in R1.
      rewrite f_loop_cons. rewrite R1, L6, L0. destruct bo; cbn; rewrite LT; rewrite IH' by auto; rewrite <- !app_assoc; rewrite orb_false_r; reflexivity.
    + cbn [app] in F. inversion F as [|f0 n0 fs0 ns0 R1 F1]; subst. unfold reads in R1.
      rewrite f_loop_cons. rewrite R1, L6, L0. cbn. rewrite LT. rewrite IH' by auto. rewrite <- !app_assoc. rewrite orb_false_r. reflexivity.
    + cbn [app] in F. inversion F as [|f0 n0 fs0 ns0 R1 F1]; subst. unfold reads in R1.
      rewrite f_loop_cons. rewrite R1, L6, L0. cbn. rewrite LT. rewrite IH' by auto. rewrite <- !app_assoc. rewrite orb_false_r. reflexivity.
    + destruct c as [|br i|r g b]; cbn [col_numbers app] in F.
      * inversion F as [|f0 n0 fs0 ns0 R1 F1]; subst. unfold reads in R1.
        ev R1. rewrite f_loop_cons. rewrite R1, L6, L0. cbn. destruct compat; cbn; rewrite LT; rewrite IH' by auto; rewrite <- !app_assoc, orb_true_r; reflexivity.
      * inversion F as [|f0 n0 fs0 ns0 R1 F1]; subst. unfold reads in R1. cbn in V.
        rewrite f_loop_cons.
        do 8 (destruct i as [|i]; [destruct br; ev R1; rewrite R1, L6, L0; cbn; rewrite LT; rewrite IH' by auto; rewrite <- !app_assoc, orb_true_r; reflexivity|]). lia.
      * inversion F as [|f0 n0 fs0 ns0 R0 F0]; subst. inversion F0 as [|f1 n1 fs1 ns1 R1 F1]; subst.
        inversion F1 as [|f2 n2 fs2 ns2 R2 F2]; subst. inversion F2 as [|f3 n3 fs3 ns3 R3 F3]; subst.
        inversion F3 as [|f4 n4 fs4 ns4 R4 F4]; subst. unfold reads in R0, R1, R2, R3, R4. cbn in V. destruct V as (V1 & V2 & V3).
        assert (C : compat = false) by (destruct compat; auto; pose proof (Forall_inv (CO eq_refl)) as X; cbn in X; contradiction). subst compat.
        ev R0. rewrite f_loop_cons. rewrite R0, L6, L0. cbn. rewrite LT.
        unfold parse24bit. rewrite R1, R2, R3, R4. change (Z.of_N 2 =? 2)%Z with true. cbn [andb].
        replace (0 <=? Z.of_N r)%Z with true by lia. replace (Z.of_N r <=? 255)%Z with true by lia.
        replace (0 <=? Z.of_N g)%Z with true by lia. replace (Z.of_N g <=? 255)%Z with true by lia.
        replace (0 <=? Z.of_N b)%Z with true by lia. replace (Z.of_N b <=? 255)%Z with true by lia. cbn [andb].
        rewrite !hex2_eq by lia. rewrite IH' by auto. rewrite orb_true_r. rewrite <- !app_assoc. reflexivity.
    + rewrite orb_false_r. destruct c as [|br i|r g b]; cbn [col_numbers app] in F.
      * inversion F as [|f0 n0 fs0 ns0 R1 F1]; subst. unfold reads in R1.
        ev R1. rewrite f_loop_cons. rewrite R1, L6, L0. cbn. destruct compat; cbn; rewrite LT; rewrite IH' by auto; rewrite <- !app_assoc; reflexivity.
      * inversion F as [|f0 n0 fs0 ns0 R1 F1]; subst. unfold reads in R1. cbn in V.
        rewrite f_loop_cons.
        do 8 (destruct i as [|i]; [destruct br, any; ev R1; rewrite R1, L6, L0; cbn; rewrite LT; rewrite IH' by auto; rewrite <- !app_assoc; reflexivity|]). lia.
      * inversion F as [|f0 n0 fs0 ns0 R0 F0]; subst. inversion F0 as [|f1 n1 fs1 ns1 R1 F1]; subst.
        inversion F1 as [|f2 n2 fs2 ns2 R2 F2]; subst. inversion F2 as [|f3 n3 fs3 ns3 R3 F3]; subst.
        inversion F3 as [|f4 n4 fs4 ns4 R4 F4]; subst. unfold reads in R0, R1, R2, R3, R4. cbn in V. destruct V as (V1 & V2 & V3).
        assert (C : compat = false) by (destruct compat; auto; pose proof (Forall_inv (CO eq_refl)) as X; cbn in X; contradiction). subst compat.
        ev R0. rewrite f_loop_cons. rewrite R0, L6, L0. cbn. rewrite LT.
        unfold parse24bit. rewrite R1, R2, R3, R4. change (Z.of_N 2 =? 2)%Z with true. cbn [andb].
        replace (0 <=? Z.of_N r)%Z with true by lia. replace (Z.of_N r <=? 255)%Z with true by lia.
        replace (0 <=? Z.of_N g)%Z with true by lia. replace (Z.of_N g <=? 255)%Z with true by lia.
        replace (0 <=? Z.of_N b)%Z with true by lia. replace (Z.of_N b <=? 255)%Z with true by lia. cbn [andb].
        rewrite !hex2_eq by lia. rewrite IH' by auto. destruct any; rewrite <- !app_assoc; reflexivity.
Qed.

Definition rgb_free (es : list el) : Prop :=
  Forall (fun e => match e with EFg (Rgb _ _ _) | EBg (Rgb _ _ _) => False | _ => True end) es.

Lemma f_loop_reads compat : forall m fs ns k out any, length fs <= m -> 1 <= k -> k <= 7 -> Forall2 reads fs ns ->
  f_loop compat fs k out any = Some None \/
  exists es, sorted k es /\ ns = flat_map el_nums es /\ (compat = true -> rgb_free es).
Proof.
  induction m as [|m IH]; intros fs ns k out any L K1 K7 F.
  { destruct fs; [|cbn in L; lia]. inversion F; subst. right. exists []. split; [exact Logic.I|]. split; [reflexivity|]. intros _; apply Forall_nil. }
  destruct F as [|f n fs ns R F].
  { right. exists []. split; [exact Logic.I|]. split; [reflexivity|]. intros _; apply Forall_nil. }
  cbn [length] in L. unfold reads in R. rewrite f_loop_cons, R.
  assert (ONE : forall e out' any', el_nums e = [n] -> stage e < k \/ (k <= stage e -> valid_el e) ->
    (compat = true -> match e with EFg (Rgb _ _ _) | EBg (Rgb _ _ _) => False | _ => True end) ->
    (if Nat.ltb (stage e) k then nope else f_loop compat fs (S (stage e)) out' any') = Some None \/
    exists es, sorted k es /\ n :: ns = flat_map el_nums es /\ (compat = true -> rgb_free es)).
  { intros e out' any' E V C. destruct (Nat.ltb_spec (stage e) k) as [|GE]; [left; reflexivity|].
    destruct (IH fs ns (S (stage e)) out' any') as [H|(es & H1 & H2 & H3)];
      [lia|lia|destruct e; cbn; lia|auto|left; exact H|].
    right. exists (e :: es). split; [|split].
    - cbn [sorted]. split; [lia|]. split; [|exact H1]. destruct V; [lia|auto].
    - cbn [flat_map]. rewrite E, H2. reflexivity.
    - intro CT. apply Forall_cons; [exact (C CT)|exact (H3 CT)]. }
  destruct (Z.ltb_spec (Z.of_N n) 0); [left; reflexivity|].
  destruct (Nat.leb 7 k); [left; reflexivity|].
  destruct (Nat.eqb k 0 && negb (Z.of_N n =? 0)%Z); [left; reflexivity|].
  destruct (Z.eqb_spec (Z.of_N n) 0); [replace (Nat.ltb 0 k) with true by (symmetry; apply Nat.ltb_lt; lia); left; reflexivity|].
  destruct (Z.eqb_spec (Z.of_N n) 7).
  { apply (ONE ERev); [cbn; f_equal; lia|right; intros _; exact Logic.I|auto]. }
  destruct ((Z.of_N n =? 1)%Z || (Z.of_N n =? 22)%Z) eqn:EB.
  { apply (ONE (EBold (Z.of_N n =? 1)%Z)); [|right; intros _; exact Logic.I|auto].
    cbn. f_equal. destruct (Z.eqb_spec (Z.of_N n) 1); lia. }
  destruct (Z.eqb_spec (Z.of_N n) 3).
  { apply (ONE EItal); [cbn; f_equal; lia|right; intros _; exact Logic.I|auto]. }
  destruct (Z.eqb_spec (Z.of_N n) 4).
  { apply (ONE EUnd); [cbn; f_equal; lia|right; intros _; exact Logic.I|auto]. }
  destruct ((30 <=? Z.of_N n)%Z && (Z.of_N n <? 38)%Z || (90 <=? Z.of_N n)%Z && (Z.of_N n <? 98)%Z) eqn:EF.
  { apply (ONE (EFg (Named (90 <=? n)%N (N.to_nat (if (90 <=? n)%N then n - 90 else n - 30)))));
      [cbn; f_equal; destruct (N.leb_spec 90 n); lia|right; intros _; cbn; destruct (N.leb_spec 90 n); lia|auto]. }
  assert (RGB : forall (mk : col -> el) base out' any', (mk = EFg /\ base = 30%N) \/ (mk = EBg /\ base = 40%N) ->
    compat = false -> n = (base + 8)%N ->
    (if Nat.ltb (stage (mk Dflt)) k then nope
     else match fs with
          | a :: b :: c :: d :: r' =>
              match parse24bit a b c d with
              | None => None
              | Some None => nope
              | Some (Some h) => f_loop compat r' (S (stage (mk Dflt))) (out' h) any'
              end
          | _ => nope
          end) = Some None \/
    exists es, sorted k es /\ n :: ns = flat_map el_nums es /\ (compat = true -> rgb_free es)).
  { intros mk base out' any' MK C En. destruct (Nat.ltb_spec (stage (mk Dflt)) k) as [|GE]; [left; reflexivity|].
    destruct F as [|f1 w1 fs1 ns1 R1 F]; [left; reflexivity|]. destruct F as [|f2 w2 fs2 ns2 R2 F]; [left; reflexivity|].
    destruct F as [|f3 w3 fs3 ns3 R3 F]; [left; reflexivity|]. destruct F as [|f4 w4 fs4 ns4 R4 F]; [left; reflexivity|].
    unfold reads in R1, R2, R3, R4. unfold parse24bit. rewrite R1, R2, R3, R4.
    destruct ((Z.of_N w1 =? 2)%Z && (0 <=? Z.of_N w2)%Z && (Z.of_N w2 <=? 255)%Z && (0 <=? Z.of_N w3)%Z && (Z.of_N w3 <=? 255)%Z &&
      (0 <=? Z.of_N w4)%Z && (Z.of_N w4 <=? 255)%Z) eqn:EC; [|left; reflexivity].
    cbn [length] in L.
    destruct (IH fs4 ns4 (S (stage (mk Dflt))) (out' (lit "#" ++ hex2 (Z.of_N w2) ++ hex2 (Z.of_N w3) ++ hex2 (Z.of_N w4))) any')
      as [H'|(es & H1 & H2 & H3)]; [lia|lia|destruct MK as [[-> _]|[-> _]]; cbn; lia|auto|left; exact H'|].
    right. exists (mk (Rgb w2 w3 w4) :: es). split; [|split].
    - cbn [sorted]. destruct MK as [[-> ->]|[-> ->]]; cbn in GE |- *; (split; [lia|]; split; [lia|exact H1]).
    - cbn [flat_map]. rewrite H2, En. destruct MK as [[-> ->]|[-> ->]]; cbn; repeat (f_equal; try lia).
    - intro CT; congruence. }
  destruct ((Z.of_N n =? 38)%Z && negb compat) eqn:E38.
  { apply andb_true_iff in E38 as [E1 E2]. apply (RGB EFg 30%N (fun h => out ++ h ++ lit " ") true);
      [left; auto|destruct compat; [discriminate|reflexivity]|lia]. }
  destruct (Z.eqb_spec (Z.of_N n) 39).
  { apply (ONE (EFg Dflt)); [cbn; f_equal; lia|right; intros _; exact Logic.I|auto]. }
  destruct ((40 <=? Z.of_N n)%Z && (Z.of_N n <? 48)%Z || (100 <=? Z.of_N n)%Z && (Z.of_N n <? 108)%Z) eqn:EBG.
  { apply (ONE (EBg (Named (100 <=? n)%N (N.to_nat (if (100 <=? n)%N then n - 100 else n - 40)))));
      [cbn; f_equal; destruct (N.leb_spec 100 n); lia|right; intros _; cbn; destruct (N.leb_spec 100 n); lia|auto]. }
  destruct ((Z.of_N n =? 48)%Z && negb compat) eqn:E48.
  { apply andb_true_iff in E48 as [E1 E2].
    apply (RGB EBg 40%N (fun h => out ++ (if any then [] else lit "default ") ++ lit "on " ++ h ++ lit " ") any);
      [right; auto|destruct compat; [discriminate|reflexivity]|lia]. }
  destruct (Z.eqb_spec (Z.of_N n) 49).
  { apply (ONE (EBg Dflt)); [cbn; f_equal; lia|right; intros _; exact Logic.I|auto]. }
  left; reflexivity.
Qed.

(** The loop from its start. *)
Definition rgb_free_attrs (a : attrs) : Prop :=
  (forall r g b, a_fg a <> Some (Rgb r g b)) /\ (forall r g b, a_bg a <> Some (Rgb r g b)).
Lemma rgb_free_els a : rgb_free (els a) <-> rgb_free_attrs a.
Proof.
  unfold rgb_free, rgb_free_attrs, els. rewrite !Forall_app.
  split.
  - intros (_ & _ & _ & _ & F & G). split; intros r g b E; rewrite E in *; cbn in *.
    + exact (Forall_inv F).
    + exact (Forall_inv G).
  - intros [F G]. split; [destruct (a_rev a); repeat apply Forall_cons; try apply Forall_nil; exact Logic.I|].
    split; [destruct (a_bold a); cbn; repeat apply Forall_cons; try apply Forall_nil; exact Logic.I|].
    split; [destruct (a_ital a); repeat apply Forall_cons; try apply Forall_nil; exact Logic.I|].
    split; [destruct (a_und a); repeat apply Forall_cons; try apply Forall_nil; exact Logic.I|].
    split.
    + destruct (a_fg a) as [c|]; cbn; [apply Forall_cons; [|apply Forall_nil]|apply Forall_nil]. destruct c; auto. eapply F; reflexivity.
    + destruct (a_bg a) as [c|]; cbn; [apply Forall_cons; [|apply Forall_nil]|apply Forall_nil]. destruct c; auto. eapply G; reflexivity.
Qed.

Lemma f_loop_start compat fs ns : Forall2 reads fs ns -> fs <> [] ->
  f_loop compat fs 0 [] false = Some None \/
  exists a, valid a /\ ns = numbers a /\ (compat = true -> rgb_free_attrs a) /\ f_loop compat fs 0 [] false = Some (Some (text (toks false (els a)))).
Proof.
  intros F NE. destruct F as [|f n fs ns R F]; [congruence|]. unfold reads in R.
  rewrite f_loop_cons, R. destruct (Z.ltb_spec (Z.of_N n) 0); [left; reflexivity|].
  change (Nat.leb 7 0) with false. change (Nat.eqb 0 0) with true. cbn [andb].
  destruct (Z.eqb_spec (Z.of_N n) 0) as [Z0|]; cbn [negb]; [|left; reflexivity].
  change (Nat.ltb 0 0) with false. cbv iota.
  destruct (f_loop_reads compat (length fs) fs ns 1 [] false) as [H'|(es & S1 & N1 & C1)]; [lia|lia|lia|auto|left; auto|].
  right. destruct (els_sorted es S1) as (a & V & ->).
  exists a. split; [auto|]. split; [rewrite numbers_els, <- N1; f_equal; lia|]. split; [intro CT; apply rgb_free_els; auto|].
  rewrite (f_loop_accepts compat (els a)); [reflexivity|auto|lia|lia|auto|rewrite <- N1; auto].
Qed.

Lemma f_loop_code compat fs a : Forall2 reads fs (numbers a) -> valid a -> (compat = true -> rgb_free_attrs a) ->
  f_loop compat fs 0 [] false = Some (Some (text (toks false (els a)))).
Proof.
  intros F V C. rewrite numbers_els in F. inversion F as [|f n fs' ns R F']; subst. unfold reads in R.
  rewrite f_loop_cons, R. cbn [Z.of_N]. change (0 <? 0)%Z with false. change (Nat.leb 7 0) with false. change (0 =? 0)%Z with true.
  cbn [andb negb Nat.eqb]. change (Nat.ltb 0 0) with false. cbv iota.
  rewrite (f_loop_accepts compat (els a)); [reflexivity|auto using sorted_els|lia|lia| |auto]. intro H. apply rgb_free_els. auto.
Qed.
