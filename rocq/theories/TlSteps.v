(** Proofs about the popup lists: the invariant. *)
From Verif Require Import Base SmallModel TlModel TlSpec TlProofs.
From Coq Require Import Sorted.
Local Open Scope Z_scope.

(** ** Going round *)
Lemma mod_up p n : 0 <= p < n -> (p + 1) mod n = if n <=? p + 1 then 0 else p + 1.
Proof.
  intros H. destruct (n <=? p + 1) eqn:E; [|apply Z.mod_small; lia]. replace (p + 1) with n by lia. apply Z_mod_same_full.
Qed.
Lemma mod_down p n : 0 <= p < n -> (p + -1) mod n = if p + -1 <? 0 then n - 1 else p + -1.
Proof.
  intros H. destruct (p + -1 <? 0) eqn:E; [|apply Z.mod_small; lia]. replace (p + -1) with (n - 1 + (-1) * n) by lia. rewrite Z_mod_plus_full. apply Z.mod_small. lia.
Qed.
Lemma mod_away i d k n : 0 <= i < n -> d = 1 \/ d = -1 -> 0 < k < n -> (i + d * k) mod n <> i.
Proof.
  intros Hi Hd Hk E. pose proof (Z.div_mod (i + d * k) n ltac:(lia)) as Hq. rewrite E in Hq. set (q := (i + d * k) / n) in *.
  assert (d * k = n * q) by lia. clear E Hq. destruct (Z.eq_dec q 0) as [Eq|Eq]; [nia|]. assert (n <= Z.abs (n * q)) by nia. lia.
Qed.
Lemma advance_mod p d n : 0 <= p < n -> d = 1 \/ d = -1 -> advance p d n = (p + d) mod n.
Proof.
  intros H [-> | ->]; unfold advance; cbv zeta; cbn [Z.ltb Z.compare]; [rewrite mod_up by lia; reflexivity|]. rewrite mod_down by lia. reflexivity.
Qed.

Section Steps.
Variable hit begins : bytes -> bytes -> bool.
Variable whole : bytes -> Prop.
Hypothesis hit_more : forall n x t, whole n -> n <> [] -> hit (n ++ x) t = true -> hit n t = true.
Variable c : cfg.
Notation positions := (positions hit). Notation shown := (shown hit).

Definition data (s : st) (L : list row) : Prop :=
  table s L /\ linked s L /\ 0 < t_ocount s /\ t_ocount s * c_vis c < 2147483648 /\
  (t_fstr s = [] -> t_fitems s = [] /\ t_count s = t_ocount s) /\
  (t_fstr s <> [] -> t_fitems s = positions (t_fstr s) (t_items s) 0 /\ t_count s = Z.of_nat (length (t_fitems s)) /\ t_filt s = true /\ c_win c = false).
Definition saved (s : st) (d : bool) : Prop :=
  t_fstr s <> [] -> d = false ->
  0 <= t_sidx s < t_ocount s /\ 0 <= t_stop s <= Z.max 0 (t_ocount s - c_vis c) /\ t_stop s <= t_sidx s < t_stop s + c_vis c.
Definition mode (s : st) (d : bool) : Prop :=
  (t_fstr s <> [] -> t_nf s = false) /\ (forall a b x, t_pend s = Some (a, b, x) -> a = 1) /\
  (d = true -> t_fstr s <> [] /\ t_needle s <> []) /\ (t_isnum s = true -> c_win c = true).
Definition base (s : st) (d : bool) : Prop := 0 < c_vis c /\ (exists L, data s L) /\ saved s d /\ mode s d.
Definition typed (s : st) : Prop := t_fstr s <> [] -> t_pend s = None -> t_needle s <> [].
Definition inv (s : st) (d : bool) : Prop := base s d /\ typed s /\ valid c s.

Lemma inv_flag s d : inv s d -> inv s (negb (is_nil (t_fstr s)) && d).
Proof.
  intros H. assert (negb (is_nil (t_fstr s)) && d = d) as ->; [|exact H]. destruct H as ((_ & _ & _ & _ & _ & H6 & _) & _). destruct d.
  - destruct (H6 eq_refl) as [Hf _]. apply is_nil_false in Hf. rewrite Hf. reflexivity.
  - apply Bool.andb_false_r.
Qed.

(** What is at a place of what is shown *)
Lemma shown_length s L : data s L -> t_count s = Z.of_nat (length (shown s L)).
Proof.
  intros ((T1 & T2 & T3 & T4) & _ & _ & _ & D1 & D2). unfold TlSpec.shown. destruct (t_fstr s) as [|b f] eqn:E.
  - destruct (D1 eq_refl) as [_ ->]. exact T1.
  - destruct (D2 ltac:(discriminate)) as (D3 & -> & _). rewrite D3, positions_length, T3. unfold passing.
    rewrite <- (map_length r_item (filter _ L)). do 2 f_equal. clear. induction L as [|r L IH]; cbn [filter map]; [reflexivity|].
    destruct (matches hit (b :: f) (r_item r)); cbn [map]; rewrite IH; reflexivity.
Qed.
Lemma filter_map {A B} (f : A -> B) (p : B -> bool) l : filter p (map f l) = map f (filter (fun x => p (f x)) l).
Proof. induction l as [|x l IH]; cbn [filter map]; [reflexivity|]. destruct (p (f x)); cbn [map]; rewrite IH; reflexivity. Qed.
Lemma place s L i r : data s L -> zth (shown s L) i = Some r ->
  exists j, original s i = Some j /\ zth L j = Some r /\ item_at s i = Some (r_item r).
Proof.
  intros ((T1 & T2 & T3 & T4) & _ & _ & _ & D1 & D2) H. unfold TlSpec.shown in H. unfold item_at, original. destruct (t_fstr s) as [|b f] eqn:E; cbn [is_nil].
  - exists i. split; [reflexivity|]. split; [exact H|]. rewrite T3, zth_map, H. reflexivity.
  - destruct (D2 ltac:(discriminate)) as (D3 & D4 & _). unfold passing in H.
    assert (exists j, zth (t_fitems s) i = Some j) as [j Hj].
    { apply zth_some. apply zth_range in H. rewrite D3, positions_length, T3, filter_map, map_length. exact H. }
    exists j. rewrite Hj. split; [reflexivity|]. rewrite D3 in Hj.
    destruct (positions_split _ _ _ _ _ _ Hj) as (l1 & x & l2 & El & Hx & -> & ->). rewrite T3 in El. rewrite Z.add_0_l.
    apply map_eq_app in El. destruct El as (L1 & L2 & -> & <- & El). destruct L2 as [|r2 L2]; [discriminate|]. injection El as <- <-.
    rewrite map_length. rewrite filter_app in H. cbn [filter] in H. rewrite Hx, positions_length, filter_map, map_length in H. rewrite zth_mid in H.
    injection H as <-. split; [apply zth_mid|]. rewrite T3, zth_map, zth_mid. reflexivity.
Qed.
Lemma item_there s L i : data s L -> 0 <= i < t_count s -> item_at s i <> None.
Proof.
  intros H Hi. rewrite (shown_length _ _ H) in Hi. destruct (zth_some _ _ Hi) as [r Hr]. destruct (place _ _ _ _ H Hr) as (j & _ & _ & ->). discriminate.
Qed.
Lemma count_le s L : data s L -> 0 <= t_count s <= t_ocount s.
Proof. clear hit_more whole begins.
  intros H. rewrite (shown_length _ _ H). destruct H as ((T1 & _) & _). rewrite T1. unfold TlSpec.shown, passing.
  destruct (t_fstr s) as [|b f]; [lia|]. pose proof (filter_length_le (fun r => matches hit (b :: f) (r_item r)) L). lia.
Qed.
Lemma count_pos s L : data s L -> t_fstr s = [] -> 0 < t_count s.
Proof. intros (_ & _ & H & _ & D1 & _) E. destruct (D1 E) as [_ ->]. exact H. Qed.

Lemma display_inv s d : base s d -> typed s -> inside c s ->
  exists t g x, display c s = Some (w_shown_title x (w_ign g (w_top t s))) /\ inv (w_shown_title x (w_ign g (w_top t s))) d.
Proof.
  intros Hb Ht Hin. pose proof Hb as (Hv & (L & HL) & Hs & Hm).
  destruct (display_some c s (fun i => item_there s L i HL) Hin ltac:(apply HL) (count_pos s L HL)) as (t & g & x & E & Hval).
  exists t, g, x. split; [exact E|]. split; [exact Hb|]. split; [exact Ht|exact Hval].
Qed.
Lemma valid_inside s : 0 < c_vis c -> 0 <= t_count s -> valid c s -> inside c s.
Proof. intros Hv Hc (H1 & H2 & H3). repeat split; auto; lia. Qed.

(** ** Finding *)
Definition good (s : st) (p : Z) : bool :=
  match item_at s p with
  | Some it => if c_win c then begins (t_needle s) (i_text it) else matches hit (t_needle s) it
  | None => false
  end.
Lemma find_loop_spec s d o : (d = 1 \/ d = -1) -> 0 <= o < t_count s -> (forall i, 0 <= i < t_count s -> item_at s i <> None) ->
  forall fuel k, 0 <= k < t_count s -> t_count s - k < Z.of_nat fuel ->
  (exists j, k <= j < t_count s /\ good s ((o + d * j) mod t_count s) = true /\
     (forall j', k <= j' < j -> good s ((o + d * j') mod t_count s) = false) /\
     find_loop hit begins fuel c s d ((o + d * k) mod t_count s) o = Some (Some ((o + d * j) mod t_count s))) \/
  ((forall j, k <= j < t_count s -> good s ((o + d * j) mod t_count s) = false) /\
     find_loop hit begins fuel c s d ((o + d * k) mod t_count s) o = Some None).
Proof.
  intros Hd Ho Hit. induction fuel as [|fuel IH]; intros k Hk Hf; [lia|].
  set (p := (o + d * k) mod t_count s). assert (Hp : 0 <= p < t_count s) by (apply Z.mod_pos_bound; lia).
  cbn [find_loop]. destruct (item_at s p) as [it|] eqn:Ei; [|exfalso; apply (Hit p Hp Ei)].
  assert (Hg : good s p = if c_win c then begins (t_needle s) (i_text it) else matches hit (t_needle s) it) by (unfold good; rewrite Ei; reflexivity).
  rewrite <- Hg. destruct (good s p) eqn:Eg.
  - left. exists k. split; [lia|]. split; [exact Eg|]. split; [lia|reflexivity].
  - rewrite advance_mod by auto.
    assert (Hn : (p + d) mod t_count s = (o + d * (k + 1)) mod t_count s).
    { unfold p. rewrite Zplus_mod_idemp_l. f_equal. lia. }
    rewrite Hn. destruct (Z.eq_dec (k + 1) (t_count s)) as [Ek|Ek].
    + rewrite Ek. replace (o + d * t_count s) with (o + d * t_count s) by lia. rewrite Z_mod_plus_full, Z.mod_small by lia.
      rewrite Z.eqb_refl. right. split; [|reflexivity]. intros j Hj. replace j with k by lia. exact Eg.
    + pose proof (mod_away o d (k + 1) (t_count s) Ho Hd ltac:(lia)) as Ha. apply Z.eqb_neq in Ha. rewrite Ha.
      destruct (IH (k + 1) ltac:(lia) ltac:(lia)) as [(j & Hj & G1 & G2 & E)|[G E]].
      * left. exists j. split; [lia|]. split; [exact G1|]. split; [|exact E]. intros j' Hj'. destruct (Z.eq_dec j' k) as [-> |]; [exact Eg|apply G2; lia].
      * right. split; [|exact E]. intros j Hj. destruct (Z.eq_dec j k) as [-> |]; [exact Eg|apply G; lia].
Qed.
Lemma find_from s d o : (d = 1 \/ d = -1) -> 0 <= o < t_count s -> (forall i, 0 <= i < t_count s -> item_at s i <> None) ->
  (exists j, 0 <= j < t_count s /\ good s ((o + d * j) mod t_count s) = true /\
     (forall j', 0 <= j' < j -> good s ((o + d * j') mod t_count s) = false) /\
     find_loop hit begins (S (Z.to_nat (t_count s))) c s d o o = Some (Some ((o + d * j) mod t_count s))) \/
  ((forall j, 0 <= j < t_count s -> good s ((o + d * j) mod t_count s) = false) /\
     find_loop hit begins (S (Z.to_nat (t_count s))) c s d o o = Some None).
Proof.
  intros Hd Ho Hit. pose proof (find_loop_spec s d o Hd Ho Hit (S (Z.to_nat (t_count s))) 0 ltac:(lia) ltac:(lia)) as H.
  rewrite Z.mul_0_r, Z.add_0_r, (Z.mod_small o) in H by lia. exact H.
Qed.

Lemma center_valid s : 0 < c_vis c -> 0 <= t_index s < t_count s -> 0 <= t_top s <= Z.max 0 (t_count s - c_vis c) ->
  exists t, center c s = w_top t s /\ valid c (w_top t s).
Proof.
  intros Hv Hi Ht. unfold center. destruct (_ || _) eqn:E.
  - eexists. split; [reflexivity|]. unfold valid. cbn [t_count t_index t_top w_top]. replace (t_count s =? 0) with false by lia.
    rewrite Z.quot_div_nonneg by lia. split; [exact Hi|]. lia.
  - exists (t_top s). split; [destruct s; reflexivity|]. unfold valid. cbn [t_count t_index t_top w_top]. replace (t_count s =? 0) with false by lia. lia.
Qed.

(** ** Filtering *)
(** What has been typed after the last search *)
Definition ready (s : st) : Prop := t_fstr s <> [] -> t_fstr s = t_needle s \/ whole (t_fstr s).
Lemma clear_filter_inv s : base s false -> valid c s ->
  exists s', clear_filter s = s' /\ inv s' false /\ t_fstr s' = [] /\ t_needle s' = t_needle s /\ t_ocount s' = t_ocount s /\ t_nf s' = t_nf s /\ t_pend s' = t_pend s.
Proof.
  intros (Hv & (L & HL) & Hs & Hm) Hval. eexists. split; [reflexivity|]. unfold clear_filter. destruct (is_nil (t_fstr s)) eqn:E.
  - apply is_nil_true in E. split; [|auto 10]. split; [split; [exact Hv|split; [exists L; exact HL|split; [exact Hs|exact Hm]]]|]. split; [intros H; congruence|exact Hval].
  - apply is_nil_false in E. destruct (Hs E eq_refl) as (S1 & S2 & S3).
    match goal with |- context [set_top ?t ?g ?x] => destruct (set_top_is t g x) as [g' ->] end. split; [|auto 10].
    destruct HL as (T & Lk & P1 & P2 & D1 & D2).
    split; [split; [exact Hv|]; split; [exists L|]|split].
    + split; [exact T|]. split; [exact Lk|]. split; [exact P1|]. split; [exact P2|]. cbn. split; [auto|intros H; congruence].
    + split; [intros H; cbn in H; congruence|]. destruct Hm as (M1 & M2 & M3 & M4). split; [intros H; destruct (H eq_refl)|]. split; [exact M2|]. split; [discriminate|exact M4].
    + intros H. cbn in H. congruence.
    + unfold valid. cbn [t_count t_index t_top w_top w_ign w_index w_fitems w_fstr w_count]. replace (t_ocount s =? 0) with false by lia. auto.
Qed.

Lemma filter_items_inv busy s d : ready s -> base s d -> valid c s -> t_filt s = true -> c_win c = false -> t_nf s = false ->
  exists s' b, filter_items hit c busy s = Some (s', b) /\ inv s' d /\ t_needle s' = t_needle s /\ t_ocount s' = t_ocount s /\
    (b = false -> s' = s) /\ (busy = false -> t_fstr s' = t_needle s) /\ ready s'.
Proof.
  intros Hrd Hb Hval Hfl Hw Hnf. pose proof Hb as (Hv & (L & HL) & Hs & Hm). unfold filter_items.
  destruct (eqb_bytes (t_fstr s) (t_needle s)) eqn:E1.
  { apply eqb_bytes_eq in E1. exists s, false. split; [reflexivity|]. split; [|auto 10]. split; [exact Hb|]. split; [|exact Hval]. intros H _. congruence. }
  destruct (is_nil (t_needle s)) eqn:E2.
  { apply is_nil_true in E2. destruct d. { destruct Hm as (_ & _ & M3 & _). destruct (M3 eq_refl). contradiction. }
    destruct (clear_filter_inv s Hb Hval) as (s' & E & Hi & F1 & F2 & F3 & _). exists s', true. rewrite E. split; [reflexivity|]. split; [exact Hi|].
    split; [exact F2|]. split; [exact F3|]. split; [discriminate|]. split; [intros _; congruence|]. intros H. congruence. }
  apply is_nil_false in E2. destruct (busy && _) eqn:E3.
  { exists s, false. split; [reflexivity|]. split; [split; [exact Hb|]; split; [|exact Hval]; intros _ _; exact E2|]. split; [auto|]. split; [auto|]. split; [auto|].
    split; [intros ->; discriminate|exact Hrd]. }
  assert (Ejs : (if negb (is_nil (t_fstr s)) && prefixb (t_fstr s) (t_needle s) then refine hit (t_needle s) (t_items s) (t_fitems s)
     else Some (positions (t_needle s) (t_items s) 0)) = Some (positions (t_needle s) (t_items s) 0)).
  { destruct (negb (is_nil (t_fstr s)) && prefixb (t_fstr s) (t_needle s)) eqn:E4; [|reflexivity]. apply andb_prop in E4. destruct E4 as [E4 E5].
    apply prefixb_iff in E5. destruct E5 as [x E5]. destruct (is_nil (t_fstr s)) eqn:E6; [discriminate|]. apply is_nil_false in E6.
    destruct HL as (_ & _ & _ & _ & _ & D2). destruct (D2 E6) as (-> & _). rewrite E5. destruct (Hrd E6) as [Hn|Hn]; [|apply (refine_positions hit whole); auto].
    rewrite E5 in Hn. exfalso. rewrite <- (app_nil_r (t_fstr s)) in Hn at 1. apply app_inv_head in Hn. subst x. rewrite app_nil_r in E5. rewrite E5, eqb_bytes_refl in E1. discriminate. }
  rewrite Ejs. set (js := positions (t_needle s) (t_items s) 0). cbv zeta.
  set (s2 := if is_nil (t_fstr s) then w_stop (t_top s) (w_sidx (t_index s) (w_count (Z.of_nat (length js)) (w_fitems js s))) else w_count (Z.of_nat (length js)) (w_fitems js s)).
  assert (H2 : exists a b, s2 = w_stop a (w_sidx b (w_count (Z.of_nat (length js)) (w_fitems js s))) /\ (t_fstr s = [] -> a = t_top s /\ b = t_index s) /\ (t_fstr s <> [] -> a = t_stop s /\ b = t_sidx s)).
  { unfold s2. destruct (is_nil (t_fstr s)) eqn:E.
    - apply is_nil_true in E. exists (t_top s), (t_index s). split; [reflexivity|]. split; [auto|congruence].
    - apply is_nil_false in E. exists (t_stop s), (t_sidx s). split; [destruct s; reflexivity|]. split; [congruence|auto]. }
  destruct H2 as (a & b & -> & A1 & A2).
  match goal with |- context [set_top ?t ?g ?x] => destruct (set_top_is t g x) as [g' ->] end.
  match goal with |- context [update_top c ?x] => set (s4 := x); destruct (update_top_is c x) as (t & g & E); pose proof (update_top_valid c x) as Hu end.
  destruct HL as (T & Lk & P1 & P2 & D1 & D2).
  assert (Hin : inside c s4).
  { split; [exact Hv|]. cbn -[Z.max Z.of_nat]. split; [lia|]. split; [|lia]. destruct (Z.of_nat (length js) =? 0) eqn:Ez; [destruct (c_reverse c); lia|]. destruct (c_reverse c); lia. }
  specialize (Hu Hin). fold s4 in E, Hu. rewrite E in Hu. exists (update_top c s4), true. rewrite E. split; [reflexivity|].
  split; [|split; [reflexivity|]; split; [reflexivity|]; split; [discriminate|split; [reflexivity|intros _; left; reflexivity]]].
  split; [split; [exact Hv|]; split; [exists L|]|split].
  - split; [exact T|]. split; [exact Lk|]. split; [exact P1|]. split; [exact P2|]. cbn. split; [congruence|]. intros _. repeat split; auto.
  - split.
    + intros _ Hd0. cbn [t_sidx t_stop t_ocount s4 w_sidx w_stop w_count w_fitems w_index w_fstr w_top w_ign]. destruct (is_nil (t_fstr s)) eqn:En.
      * apply is_nil_true in En. destruct (A1 En) as [-> ->]. destruct (D1 En) as [_ Ec]. destruct Hval as (V1 & V2 & V3). rewrite Ec in V1, V2.
        replace (t_ocount s =? 0) with false in V1 by lia. auto.
      * apply is_nil_false in En. destruct (A2 En) as [-> ->]. apply (Hs En Hd0).
    + destruct Hm as (M1 & M2 & M3 & M4). cbn. split; [auto|]. split; [exact M2|]. split; [intros Hd1; split; auto|exact M4].
  - intros _ _. exact E2.
  - exact Hu.
Qed.

Lemma do_find_inv busy dir fb adv s d : ready s -> base s d -> valid c s -> dir = 1 \/ dir = -1 ->
  exists s' b, do_find hit begins c busy dir fb adv s = Some (s', b) /\ inv s' d /\ t_needle s' = t_needle s /\ t_ocount s' = t_ocount s /\ ready s'.
Proof.
  intros Hrd Hb Hval Hdir. pose proof Hb as (Hv & (L & HL) & Hs & Hm). unfold do_find.
  assert (Hem : t_fstr s = [] -> inv s d). { intros E. split; [exact Hb|]. split; [intros H; congruence|exact Hval]. }
  destruct (t_nf s) eqn:Enf.
  { exists s, false. split; [reflexivity|]. split; [|auto]. apply Hem. destruct (t_fstr s) eqn:E; [reflexivity|]. destruct Hm as (M1 & _). rewrite E in M1.
    specialize (M1 ltac:(discriminate)). congruence. }
  destruct (t_filt s && negb (c_win c)) eqn:Em.
  { apply andb_prop in Em. destruct Em as [E1 E2]. destruct (c_win c) eqn:Ew; [discriminate|].
    destruct (filter_items_inv busy s d Hrd Hb Hval E1 Ew Enf) as (s' & b & E & Hi & F1 & F2 & _ & _ & F3). exists s', b. auto 10. }
  assert (Ef : t_fstr s = []).
  { destruct (t_fstr s) eqn:E; [reflexivity|]. destruct HL as (_ & _ & _ & _ & _ & D2). rewrite E in D2. destruct (D2 ltac:(discriminate)) as (_ & _ & D3 & D4). rewrite D3, D4 in Em. discriminate. }
  cbv zeta. set (dr := if c_reverse c then 0 - dir else dir). assert (Hdr : dr = 1 \/ dr = -1) by (unfold dr; destruct (c_reverse c); lia).
  set (i0 := if fb then (if c_reverse c then t_count s - 1 else 0) else t_index s).
  pose proof (count_pos _ _ HL Ef) as Hc. assert (Hi0 : 0 <= i0 < t_count s).
  { unfold i0. destruct Hval as (V1 & _). replace (t_count s =? 0) with false in V1 by lia. destruct fb; [destruct (c_reverse c)|]; lia. }
  set (o := if adv then advance i0 dr (t_count s) else i0).
  assert (Ho : 0 <= o < t_count s). { unfold o. destruct adv; [|exact Hi0]. rewrite advance_mod by auto. apply Z.mod_pos_bound. lia. }
  destruct (find_from s dr o Hdr Ho (fun i => item_there s L i HL)) as [(j & Hj & G1 & G2 & ->)|[G ->]].
  - assert (Hp : 0 <= (o + dr * j) mod t_count s < t_count s) by (apply Z.mod_pos_bound; lia).
    destruct (center_valid (w_index ((o + dr * j) mod t_count s) s) Hv Hp ltac:(apply Hval)) as (t & -> & Hval2).
    eexists. eexists. split; [reflexivity|]. split; [|split; [reflexivity|split; [reflexivity|intros H; cbn in H; congruence]]]. split; [exact Hb|]. split; [intros H; cbn in H; congruence|exact Hval2].
  - eexists. eexists. split; [reflexivity|]. destruct (negb (t_filt s) && negb (c_win c)); [|auto]. split; [|split; [reflexivity|split; [reflexivity|intros H; cbn in H; congruence]]]. split; [|split; [intros H; cbn in H; congruence|exact Hval]].
    split; [exact Hv|]. split; [exists L; exact HL|]. split; [exact Hs|]. destruct Hm as (M1 & M2 & M3 & M4). split; [intros H; cbn in H; congruence|]. split; [exact M2|]. split; [exact M3|exact M4].
Qed.
End Steps.
