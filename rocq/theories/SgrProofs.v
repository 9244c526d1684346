(** SGR, CSI parameters and the printer. *)
From Verif Require Import Base AttrModel AttrSpec AttrProofs.
Open Scope N_scope.

Lemma nth_app_l {A} (pre l : list A) k : nth_error (pre ++ l) (length pre + k) = nth_error l k.
Proof. induction pre as [|a pre IH]; [reflexivity|exact IH]. Qed.

(** No parameter that is not there is ever read. *)
Lemma cube_ok j : j < 216 -> exists r g b, nth_error rgb_cube (N.to_nat (j / 6 / 6)) = Some r /\ nth_error rgb_cube (N.to_nat (j / 6 mod 6)) = Some g /\ nth_error rgb_cube (N.to_nat (j mod 6)) = Some b /\
  r = level (j / 36) /\ g = level (j / 6 mod 6) /\ b = level (j mod 6).
Proof.
  intro H. assert (Hc : forall i, i < 6 -> nth_error rgb_cube (N.to_nat i) = Some (level i)).
  { intros i Hi. assert (i = 0 \/ i = 1 \/ i = 2 \/ i = 3 \/ i = 4 \/ i = 5) as [->|[->|[->|[->|[->| ->]]]]] by lia; reflexivity. }
  assert (E : j / 36 = j / 6 / 6) by (rewrite N.div_div by lia; reflexivity). rewrite E.
  exists (level (j / 6 / 6)), (level (j / 6 mod 6)), (level (j mod 6)). rewrite !Hc by lia. auto 10.
Qed.
Lemma nth_in {A} (l : list A) i : (i < length l)%nat -> exists x, nth_error l i = Some x.
Proof. intro H. destruct (nth_error l i) eqn:E; [eauto|]. apply nth_error_None in E. lia. Qed.
Lemma sgr_loop_safe ps fuel : forall i attr, (length ps - i < fuel)%nat -> exists a, sgr_loop fuel ps i attr = Some a.
Proof.
  induction fuel as [|fuel IH]; intros i attr Hf; [lia|]. cbn [sgr_loop]. destruct (length ps <=? i)%nat eqn:El; [eauto|].
  destruct (nth_in ps i ltac:(lia)) as [p Ep]. rewrite Ep. cbv zeta.
  assert (Hn : forall j a, (i < j)%nat -> exists a', sgr_loop fuel ps j a = Some a') by (intros j a Hj; apply IH; lia).
  destruct (p =? 0); [apply Hn; lia|]. destruct (p =? 49); [apply Hn; lia|]. destruct (p =? 39); [apply Hn; lia|].
  destruct ((p =? 1) || (p =? 2) || (p =? 22)); [apply Hn; lia|]. destruct ((p =? 4) || (p =? 24)); [apply Hn; lia|].
  destruct ((30 <=? p) && (p <=? 37) || (90 <=? p) && (p <=? 97)); [apply Hn; lia|]. destruct ((40 <=? p) && (p <=? 47) || (100 <=? p) && (p <=? 107)); [apply Hn; lia|].
  destruct ((p =? 7) || (p =? 27)); [apply Hn; lia|]. destruct ((p =? 38) || (p =? 48)); [|apply Hn; lia].
  destruct (1 <? length ps - i)%nat eqn:E1; [|apply Hn; lia]. destruct (nth_in ps (S i) ltac:(lia)) as [ty Et]. rewrite Et.
  destruct (ty =? 2).
  - destruct (3 <? length ps - i - 1)%nat eqn:E3; [|apply Hn; lia].
    destruct (nth_in ps (S i + 1) ltac:(lia)) as [r Er]. destruct (nth_in ps (S i + 2) ltac:(lia)) as [g Eg]. destruct (nth_in ps (S i + 3) ltac:(lia)) as [b Eb]. rewrite Er, Eg, Eb. apply Hn. lia.
  - destruct (ty =? 5); [|apply Hn; lia]. destruct (1 <? length ps - i - 1)%nat eqn:E3; [|apply Hn; lia]. destruct (nth_in ps (S i + 1) ltac:(lia)) as [r Er]. rewrite Er.
    assert (Hr : r mod 256 < 256) by (apply N.mod_lt; lia). destruct (r mod 256 <? 16) eqn:R1; [apply Hn; lia|]. destruct (232 <=? r mod 256) eqn:R2; [apply Hn; lia|].
    destruct (cube_ok (r mod 256 - 16) ltac:(lia)) as (x & y & z & -> & -> & -> & _). apply Hn. lia.
Qed.
Lemma sgr_safe ps : exists a, sgr ps = Some a.
Proof. unfold sgr. destruct ps as [|p ps]; [eauto|]. apply sgr_loop_safe. lia. Qed.

(** one command *)
Definition fgbg (fg : bool) (c : pcolor) : sgrcmd := if fg then GFg c else GBg c.
Lemma view_x (fg : bool) i attr : i < 256 -> exists attr',
  (if i <? 16 then Some (if fg then set_fg i attr else set_bg i attr)
   else if 232 <=? i then let gray := (8 + (i - 232) * 10) mod 256 in Some (if fg then set_fg_rgb gray gray gray attr else set_bg_rgb gray gray gray attr)
   else let idx := i - 16 in
     match nth_error rgb_cube (N.to_nat (idx / 6 / 6)), nth_error rgb_cube (N.to_nat (idx / 6 mod 6)), nth_error rgb_cube (N.to_nat (idx mod 6)) with
     | Some r, Some g, Some b => Some (if fg then set_fg_rgb r g b attr else set_bg_rgb r g b attr)
     | _, _, _ => None
     end) = Some attr' /\ view attr' = gapply (view attr) (fgbg fg (PX i)).
Proof.
  intro H. unfold fgbg, gapply. destruct (i <? 16) eqn:E1.
  - eexists. split; [reflexivity|]. destruct fg; cbn [pmean]; unfold xterm; rewrite E1; [apply view_set_fg|apply view_set_bg]; try assumption; cbn [cval]; apply N.ltb_lt in E1; lia.
  - destruct (232 <=? i) eqn:E2; cbv zeta.
    + eexists. split; [reflexivity|]. assert (Eg : (8 + (i - 232) * 10) mod 256 = 8 + 10 * (i - 232)) by (apply N.leb_le in E2; rewrite N.mod_small by lia; lia). rewrite Eg.
      destruct fg; cbn [pmean]; unfold xterm; rewrite E1; (replace (i <? 232) with false by (symmetry; apply N.ltb_ge; lia)); [apply view_set_fg_rgb|apply view_set_bg_rgb]; lia.
    + destruct (cube_ok (i - 16) ltac:(lia)) as (r & g & b & -> & -> & -> & -> & -> & ->). eexists. split; [reflexivity|].
      assert (Hl : forall k, k < 6 -> level k < 256) by (intros k Hk; unfold level; destruct (k =? 0); lia).
      destruct fg; cbn [pmean]; unfold xterm; rewrite E1; replace (i <? 232) with true by lia; [apply view_set_fg_rgb|apply view_set_bg_rgb]; apply Hl; lia.
Qed.

Lemma land15 i : i < 16 -> forall k, N.land (16 * k + i) 15 = i.
Proof. intros H k. change 15 with (N.ones 4). rewrite N.land_ones. change (2 ^ 4) with 16. lia. Qed.

Lemma sgr_color (fg : bool) c pre rest fuel attr : pok c ->
  let ps := pre ++ penc (if fg then 30 else 40) c ++ rest in
  exists attr', sgr_loop (S fuel) ps (length pre) attr = sgr_loop fuel ps (length (pre ++ penc (if fg then 30 else 40) c)) attr' /\ view attr' = gapply (view attr) (fgbg fg c).
Proof.
  intros Hc ps. assert (Hlen : length ps = (length pre + (length (penc (if fg then 30 else 40) c) + length rest))%nat) by (unfold ps; rewrite !app_length; reflexivity).
  assert (Hnth : forall k, nth_error ps (length pre + k) = nth_error (penc (if fg then 30 else 40) c ++ rest) k) by (intro k; apply nth_app_l).
  assert (Hpos : (1 <= length (penc (if fg then 30 else 40) c))%nat) by (destruct c; cbn; lia).
  rewrite app_length. cbn [sgr_loop]. replace (length ps <=? length pre)%nat with false by lia.
  pose proof (Hnth 0%nat) as H0. rewrite Nat.add_0_r in H0. clearbody ps.
  destruct c as [i|i|i|r g b|]; cbn [penc app length pok] in *; cbn [nth_error] in H0; rewrite H0; cbv zeta.
  - rewrite (Nat.add_1_r (length pre)). destruct fg.
    + replace (30 + i =? 0) with false by lia. replace (30 + i =? 49) with false by lia. replace (30 + i =? 39) with false by lia. replace ((30 + i =? 1) || (30 + i =? 2) || (30 + i =? 22)) with false by lia.
      replace ((30 + i =? 4) || (30 + i =? 24)) with false by lia. replace ((30 <=? 30 + i) && (30 + i <=? 37) || (90 <=? 30 + i) && (30 + i <=? 97)) with true by lia. replace (90 <=? 30 + i) with false by lia.
      eexists. split; [reflexivity|]. replace (30 + i + 2) with (16 * 2 + i) by lia. rewrite land15 by lia. apply view_set_fg; lia.
    + replace (40 + i =? 0) with false by lia. replace (40 + i =? 49) with false by lia. replace (40 + i =? 39) with false by lia. replace ((40 + i =? 1) || (40 + i =? 2) || (40 + i =? 22)) with false by lia.
      replace ((40 + i =? 4) || (40 + i =? 24)) with false by lia. replace ((30 <=? 40 + i) && (40 + i <=? 37) || (90 <=? 40 + i) && (40 + i <=? 97)) with false by lia.
      replace ((40 <=? 40 + i) && (40 + i <=? 47) || (100 <=? 40 + i) && (40 + i <=? 107)) with true by lia. replace (100 <=? 40 + i) with false by lia.
      eexists. split; [reflexivity|]. replace (40 + i + 8) with (16 * 3 + i) by lia. rewrite land15 by lia. apply view_set_bg; lia.
  - rewrite (Nat.add_1_r (length pre)). destruct fg.
    + replace (30 + 60 + i) with (90 + i) by lia. replace (90 + i =? 0) with false by lia. replace (90 + i =? 49) with false by lia. replace (90 + i =? 39) with false by lia. replace ((90 + i =? 1) || (90 + i =? 2) || (90 + i =? 22)) with false by lia.
      replace ((90 + i =? 4) || (90 + i =? 24)) with false by lia. replace ((30 <=? 90 + i) && (90 + i <=? 37) || (90 <=? 90 + i) && (90 + i <=? 97)) with true by lia. replace (90 <=? 90 + i) with true by lia.
      eexists. split; [reflexivity|]. replace (90 + i + 14) with (16 * 6 + (i + 8)) by lia. rewrite land15 by lia. apply view_set_fg; lia.
    + replace (40 + 60 + i) with (100 + i) by lia. replace (100 + i =? 0) with false by lia. replace (100 + i =? 49) with false by lia. replace (100 + i =? 39) with false by lia. replace ((100 + i =? 1) || (100 + i =? 2) || (100 + i =? 22)) with false by lia.
      replace ((100 + i =? 4) || (100 + i =? 24)) with false by lia. replace ((30 <=? 100 + i) && (100 + i <=? 37) || (90 <=? 100 + i) && (100 + i <=? 97)) with false by lia.
      replace ((40 <=? 100 + i) && (100 + i <=? 47) || (100 <=? 100 + i) && (100 + i <=? 107)) with true by lia. replace (100 <=? 100 + i) with true by lia.
      eexists. split; [reflexivity|]. replace (100 + i + 4) with (16 * 6 + (i + 8)) by lia. rewrite land15 by lia. apply view_set_bg; lia.
  - pose proof (Hnth 1%nat) as H1. pose proof (Hnth 2%nat) as H2. cbn [nth_error] in H1, H2. rewrite Nat.add_1_r in H1.
    replace (length pre + 2)%nat with (S (length pre) + 1)%nat in H2 by lia. replace (length pre + 3)%nat with (S (S (length pre) + 1)) by lia.
    destruct (view_x fg i attr Hc) as (attr' & Ex & Hv). exists attr'. split; [|exact Hv].
    destruct fg; (change (30 + 8) with 38 || change (40 + 8) with 48); cbn [N.eqb Pos.eqb orb andb N.leb N.compare Pos.compare Pos.compare_cont];
      (replace (1 <? length ps - length pre)%nat with true by lia); rewrite H1; cbn [N.eqb Pos.eqb]; (replace (1 <? length ps - length pre - 1)%nat with true by lia); rewrite H2, N.mod_small by exact Hc;
      cbv zeta in Ex; rewrite Ex; reflexivity.
  - pose proof (Hnth 1%nat) as H1. pose proof (Hnth 2%nat) as H2. pose proof (Hnth 3%nat) as H3. pose proof (Hnth 4%nat) as H4. cbn [nth_error] in H1, H2, H3, H4. rewrite Nat.add_1_r in H1.
    replace (length pre + 2)%nat with (S (length pre) + 1)%nat in H2 by lia. replace (length pre + 3)%nat with (S (length pre) + 2)%nat in H3 by lia. replace (length pre + 4)%nat with (S (length pre) + 3)%nat in H4 by lia.
    replace (length pre + 5)%nat with (S (S (length pre) + 3)) by lia. exists (if fg then set_fg_rgb r g b attr else set_bg_rgb r g b attr). destruct Hc as (Hr & Hg & Hb).
    split; [|destruct fg; [apply view_set_fg_rgb|apply view_set_bg_rgb]; assumption].
    destruct fg; (change (30 + 8) with 38 || change (40 + 8) with 48); cbn [N.eqb Pos.eqb orb andb N.leb N.compare Pos.compare Pos.compare_cont];
      (replace (1 <? length ps - length pre)%nat with true by lia); rewrite H1; cbn [N.eqb Pos.eqb]; (replace (3 <? length ps - length pre - 1)%nat with true by lia); rewrite H2, H3, H4; reflexivity.
  - rewrite (Nat.add_1_r (length pre)). destruct fg; [exists (reset_fg attr); split; [reflexivity|apply view_reset_fg]|exists (reset_bg attr); split; [reflexivity|apply view_reset_bg]].
Qed.

Lemma sgr_cmd g pre rest fuel attr : gok g ->
  let ps := pre ++ genc g ++ rest in
  exists attr', sgr_loop (S fuel) ps (length pre) attr = sgr_loop fuel ps (length (pre ++ genc g)) attr' /\ view attr' = gapply (view attr) g.
Proof.
  intros Hg ps. destruct g as [|b| |b|b|c|c|p]; cbn [gok] in Hg.
  6: exact (sgr_color true c pre rest fuel attr Hg).
  6: exact (sgr_color false c pre rest fuel attr Hg).
  all: assert (H0 : nth_error ps (length pre) = nth_error (genc _ ++ rest) 0) by (rewrite <- (Nat.add_0_r (length pre)); apply nth_app_l).
  all: assert (Hlen : (length ps <=? length pre)%nat = false) by (unfold ps; rewrite !app_length; destruct b || idtac; cbn; lia).
  all: clearbody ps; rewrite app_length; cbn [sgr_loop]; rewrite Hlen, H0; cbv zeta.
  - exists defaults. cbn [genc length]. rewrite (Nat.add_1_r (length pre)). split; reflexivity.
  - exists (set_bold b attr). destruct b; cbn [genc length]; rewrite (Nat.add_1_r (length pre)); (split; [reflexivity|apply view_set_bold]).
  - exists (set_bold false attr). cbn [genc length]. rewrite (Nat.add_1_r (length pre)). split; [reflexivity|apply view_set_bold].
  - exists (set_underline b attr). destruct b; cbn [genc length]; rewrite (Nat.add_1_r (length pre)); (split; [reflexivity|apply view_set_underline]).
  - exists (set_reverse b attr). destruct b; cbn [genc length]; rewrite (Nat.add_1_r (length pre)); (split; [reflexivity|apply view_set_reverse]).
  - exists attr. cbn [genc length app nth_error]. rewrite (Nat.add_1_r (length pre)). split; [|reflexivity]. unfold known in Hg. cbn [In] in Hg.
    replace (p =? 0) with false by lia. replace (p =? 49) with false by lia. replace (p =? 39) with false by lia. replace ((p =? 1) || (p =? 2) || (p =? 22)) with false by lia. replace ((p =? 4) || (p =? 24)) with false by lia.
    replace ((30 <=? p) && (p <=? 37) || (90 <=? p) && (p <=? 97)) with false by lia. replace ((40 <=? p) && (p <=? 47) || (100 <=? p) && (p <=? 107)) with false by lia.
    replace ((p =? 7) || (p =? 27)) with false by lia. replace ((p =? 38) || (p =? 48)) with false by lia. reflexivity.
Qed.

Lemma sgr_cmds gs : Forall gok gs -> forall pre fuel attr, (length (flat_map genc gs) < fuel)%nat ->
  exists attr', sgr_loop fuel (pre ++ flat_map genc gs) (length pre) attr = Some attr' /\ view attr' = fold_left gapply gs (view attr).
Proof.
  induction 1 as [|g gs Hg H IH]; intros pre fuel attr Hf; (destruct fuel as [|fuel]; [lia|]).
  - exists attr. cbn [flat_map fold_left]. rewrite app_nil_r. cbn [sgr_loop]. rewrite Nat.leb_refl. split; reflexivity.
  - cbn [flat_map fold_left] in *. destruct (sgr_cmd g pre (flat_map genc gs) fuel attr Hg) as (a1 & E1 & V1). cbv zeta in E1. rewrite E1, <- V1, app_assoc.
    apply IH. rewrite app_length in Hf. assert (1 <= length (genc g))%nat by (destruct g as [|[]| |[]|[]|[]|[]|]; cbn; lia). lia.
Qed.
Theorem sgr_correct gs : Forall gok gs -> gs <> [] -> exists a, sgr (flat_map genc gs) = Some a /\ view a = fold_left gapply gs unset.
Proof.
  intros H Hn. unfold sgr. assert (Hne : flat_map genc gs <> []) by (destruct gs as [|[|[]| |[]|[]|[]|[]|] gs]; [congruence|..]; discriminate).
  destruct (sgr_cmds gs H [] (S (length (flat_map genc gs))) empty ltac:(lia)) as (a & E & V). exists a. split; [|exact V].
  destruct (flat_map genc gs) as [|p ps]; [congruence|]. exact E.
Qed.

(** CSI parameters *)
Definition fits (d : list N) : Prop := Forall isdig d /\ dval d < 2147483648.
Lemma dval_mono d : forall v, v <= fold_left (fun v c => 10 * v + (c - 48)) d v.
Proof. induction d as [|c d IH]; intro v; cbn [fold_left]; [lia|]. etransitivity; [|apply IH]. lia. Qed.
Lemma csi_digits d : Forall isdig d -> forall v t max ps tr i f, fold_left (fun v c => 10 * v + (c - 48)) d v < 2147483648 ->
  csi_loop (d ++ t) max v ps tr i f = csi_loop t max (fold_left (fun v c => 10 * v + (c - 48)) d v) ps (match d with [] => tr | _ => true end) i f.
Proof.
  induction 1 as [|c d Hc H IH]; intros v t max ps tr i f Hb; [reflexivity|]. cbn [app csi_loop fold_left] in *. unfold isdig in Hc. unfold ir.
  replace (c =? 0) with false by lia. replace ((48 <=? c) && (c <=? 59)) with true by lia. replace (c =? 59) with false by lia. replace (c =? 58) with false by lia.
  pose proof (dval_mono d (10 * v + (c - 48))) as Hm. replace (v * 10 + (c - 48)) with (10 * v + (c - 48)) by lia. replace (10 * v + (c - 48) <? 2147483648) with true by lia.
  rewrite IH by exact Hb. destruct d; reflexivity.
Qed.
Definition room (max : nat) (ps : list N) (p : N) : list N := if (length ps <? max)%nat then ps ++ [p] else ps.
Lemma csi_join ds : ds <> [] -> Forall fits ds -> forall t max ps tr i f,
  exists v, csi_loop (pjoin ds ++ t) max 0 ps tr i f = csi_loop t max v (fold_left (room max) (removelast (map dval ds)) ps) (match pjoin ds with [] => tr | _ => true end) i f /\ v = last (map dval ds) 0.
Proof.
  intros Hne H. induction H as [|d ds [Hd Hb] H IH]; [congruence|]. intros t max ps tr i f. destruct ds as [|d2 ds].
  - cbn [pjoin map removelast fold_left last]. exists (dval d). split; [|reflexivity]. rewrite (csi_digits d Hd 0) by exact Hb. destruct d; reflexivity.
  - change (pjoin (d :: d2 :: ds)) with (d ++ 59 :: pjoin (d2 :: ds)). rewrite <- app_assoc. rewrite (csi_digits d Hd 0) by exact Hb. cbn [app csi_loop].
    change (59 =? 0) with false. change (ir 59 48 59) with true. change (59 =? 59) with true. cbv iota. fold (dval d). fold (room max ps (dval d)).
    destruct (IH ltac:(discriminate) t max (room max ps (dval d)) true i f) as (v & E & Ev). exists v. rewrite E. split; [|rewrite Ev; reflexivity].
    change (removelast (map dval (d :: d2 :: ds))) with (dval d :: removelast (map dval (d2 :: ds))). cbn [fold_left]. destruct d, (pjoin (d2 :: ds)); reflexivity.
Qed.
Lemma rooms max xs : forall ps, (length ps <= max)%nat -> fold_left (room max) xs ps = firstn max (ps ++ xs).
Proof.
  induction xs as [|x xs IH]; intros ps Hp; cbn [fold_left]; [rewrite app_nil_r, firstn_all2 by lia; reflexivity|].
  unfold room at 2. destruct (length ps <? max)%nat eqn:E.
  - rewrite IH by (rewrite app_length; cbn; lia). rewrite <- app_assoc. reflexivity.
  - rewrite IH by exact Hp. assert (length ps = max) by lia. rewrite !firstn_app. replace (max - length ps)%nat with 0%nat by lia. reflexivity.
Qed.
Lemma csi_inter is : Forall (fun c => 32 <= c <= 47) is -> forall t max v ps tr i f, csi_loop (is ++ t) max v ps tr i f = csi_loop t max v ps tr (last is i) f.
Proof.
  induction 1 as [|c is Hc H IH]; intros t max v ps tr i f; [reflexivity|]. cbn [app csi_loop]. unfold ir. replace (c =? 0) with false by lia. replace ((48 <=? c) && (c <=? 59)) with false by lia.
  replace ((32 <=? c) && (c <=? 47)) with true by lia. rewrite IH. f_equal. destruct is as [|c2 is]; [reflexivity|]. clear. cbn [last]. revert c2. induction is as [|x is IH]; intro c2; [reflexivity|exact (IH x)].
Qed.

Definition csi_text (esc priv : bool) (pc : N) (ds : list (list N)) (is : list N) (f : N) : list N :=
  (if esc then [27; 91] else [155]) ++ (if priv then [pc] else []) ++ pjoin ds ++ is ++ [f].
Theorem csi_correct esc priv pc ds is f max : 60 <= pc <= 63 -> ds <> [] -> Forall fits ds -> Forall (fun c => 32 <= c <= 47) is -> 64 <= f <= 126 ->
  decode_csi (csi_text esc priv pc ds is f) max = Some (priv, firstn max (pvals ds), last is 0, f).
Proof.
  intros Hpc Hne Hds His Hf. unfold decode_csi, csi_text.
  assert (Hskip : forall t, match (if esc then [27; 91] else [155]) ++ t with 27 :: _ :: t => t | _ :: t => t | [] => [] end = t) by (intro t; destruct esc; reflexivity).
  rewrite Hskip. cbv zeta.
  assert (Hp : exists t, (let '(p, t') := match (if priv then [pc] else []) ++ pjoin ds ++ is ++ [f] with c :: t' => if ir c 60 63 then (true, t') else (false, (if priv then [pc] else []) ++ pjoin ds ++ is ++ [f]) | [] => (false, []) end in (p, t')) = (priv, t) /\ t = pjoin ds ++ is ++ [f]).
  { destruct priv.
    - eexists. cbn [app]. unfold ir. replace ((60 <=? pc) && (pc <=? 63)) with true by lia. split; reflexivity.
    - exists (pjoin ds ++ is ++ [f]). split; [|reflexivity]. cbn [app]. destruct (pjoin ds ++ is ++ [f]) as [|c t] eqn:E; [reflexivity|].
      assert (Hc : ir c 60 63 = false).
      { unfold ir. destruct ds as [|d ds]; [congruence|]. apply Forall_inv in Hds as [Hd _]. destruct d as [|x d].
        - destruct ds as [|d2 ds]; cbn [pjoin app] in E.
          + destruct is as [|x is]; cbn [app] in E; injection E as <- _; [lia|]. apply Forall_inv in His. lia.
          + injection E as <- _. reflexivity.
        - apply Forall_inv in Hd. unfold isdig in Hd. assert (x = c) by (destruct ds; cbn [pjoin app] in E; injection E; auto). subst x. lia. }
      rewrite Hc. reflexivity. }
  destruct Hp as (t & Ep & ->).
  destruct (match (if priv then [pc] else []) ++ pjoin ds ++ is ++ [f] with c :: t' => if ir c 60 63 then (true, t') else (false, (if priv then [pc] else []) ++ pjoin ds ++ is ++ [f]) | [] => (false, []) end) as [p t'] eqn:E0.
  injection Ep as -> ->.
  destruct (csi_join ds Hne Hds (is ++ [f]) max [] false 0 0) as (v & E & Ev). rewrite E, csi_inter by exact His. cbn [csi_loop]. unfold ir.
  replace (f =? 0) with false by lia. replace ((48 <=? f) && (f <=? 59)) with false by lia. replace ((32 <=? f) && (f <=? 47)) with false by lia. replace ((60 <=? f) && (f <=? 63)) with false by lia. cbn [negb].
  rewrite rooms by (cbn; lia). cbn [app]. do 3 f_equal. f_equal.
  destruct (pjoin ds) as [|x j] eqn:Ej.
  - assert (ds = [[]]) as ->. { destruct ds as [|[|y d] [|d2 ds]]; cbn [pjoin app] in Ej; try discriminate; [congruence|reflexivity]. } cbn. destruct max; reflexivity.
  - replace (pvals ds) with (map dval ds) by (destruct ds as [|[|y d] [|d2 ds]]; try reflexivity; discriminate). cbn [andb].
    assert (Em : map dval ds = removelast (map dval ds) ++ [v]) by (rewrite Ev; apply app_removelast_last; destruct ds; [congruence|discriminate]).
    rewrite Em at 4. fold (room max (firstn max (removelast (map dval ds))) v).
    pose proof (rooms max (removelast (map dval ds) ++ [v]) [] ltac:(cbn; lia)) as R. rewrite fold_left_app in R. cbn [fold_left] in R. rewrite rooms in R by (cbn; lia). exact R.
Qed.
