(** translate_xy_to_readline finds the character that is displayed in a cell. *)
From Verif Require Import Base DispModel DispSpec DispTerm DispRows DispLayout DispFits.
Open Scope nat_scope.

Section Click.
Variable W : nat.
Variable nls : bool.
Definition plainw (g : cluster) : Prop := fst g <> [] /\ newline nls g = false /\ (0 <= snd g)%Z /\ 1 <= Z.to_nat (snd g).
Lemma wid2_pc g : plainw g -> wid2 g = snd (pc g).
Proof. intros (_ & _ & H & _). unfold wid2, pc. cbn [snd]. replace (snd g <? 0)%Z with false by lia. reflexivity. Qed.
Lemma take_stop a : forall target x0 c, Forall plainw a -> x0 + span (map pc a) <= target ->
  (c = [] \/ exists h c', c = h :: c' /\ target < x0 + span (map pc a) + wid2 h) -> take_row target x0 (a ++ c) = (bytes a, c).
Proof.
  induction a as [|g a IH]; intros target x0 c F H Hc.
  - cbn [app map span fold_right] in *. destruct Hc as [->|(h & c' & -> & Hh)]; [reflexivity|]. cbn [take_row]. replace (target <? x0 + wid2 h) with true by lia. reflexivity.
  - inversion F as [|? ? Hg F']; subst. cbn [app take_row map span fold_right] in *. fold (span (map pc a)) in *. pose proof (wid2_pc g Hg) as E. replace (target <? x0 + wid2 g) with false by lia.
    rewrite (IH target (x0 + wid2 g) c F'); [|lia|destruct Hc as [Hc|(h & c' & Ec & Hh)]; [left; exact Hc|right; exists h, c'; split; [exact Ec|lia]]].
    f_equal. change (g :: a) with ([g] ++ a). rewrite bytes_app, bytes_one. reflexivity.
Qed.
Lemma flat1_some r X : flat1 r = map Some X -> l_newline (fst r) = false /\ snd r = X.
Proof.
  unfold flat1. intro H. destruct (l_newline (fst r)).
  - exfalso. assert (In None (map Some X)) by (rewrite <- H; apply in_or_app; right; left; reflexivity). apply in_map_iff in H0 as (x & Hx & _). discriminate.
  - rewrite app_nil_r in H. split; [reflexivity|]. apply map_some_inj. exact H.
Qed.
Lemma rows_click x (R1 : list rowp) : forall l ps R2 x0 gs0, flat (R1 ++ (l, ps) :: R2) = map Some (map pc gs0) -> match R1 ++ (l, ps) :: R2 with r :: _ => l_x (fst r) = x0 | [] => False end ->
  Forall (laid W) (R1 ++ (l, ps) :: R2) -> linked W (R1 ++ (l, ps) :: R2) -> Forall plainw gs0 ->
  exists a b c, gs0 = a ++ b ++ c /\ flat R1 = map Some (map pc a) /\ map pc b = ps /\ l_newline l = false
    /\ click_rows W (length R1) x x0 gs0 = bytes a + fst (take_row x (l_x l) (b ++ c))
    /\ (c = [] \/ exists h c', c = h :: c' /\ W < l_lastcol l + wid2 h).
Proof.
  induction R1 as [|r R1 IH]; intros l ps R2 x0 gs0 Hf Hx HL HK HP.
  - cbn [app] in *. unfold flat in Hf. cbn [flat_map] in Hf. symmetry in Hf. apply map_eq_app in Hf as (X1 & X2 & E & E1 & E2). apply map_eq_app in E as (b & c & Eg & Eb & Ec). subst gs0. symmetry in E1. apply flat1_some in E1 as [En Ep]. cbn [fst snd] in *.
    exists [], b, c. cbn [app length click_rows map flat flat_map]. change (bytes []) with 0. rewrite Hx. split; [reflexivity|]. split; [reflexivity|]. split; [congruence|]. split; [exact En|]. split; [reflexivity|].
    destruct c as [|h c']; [left; reflexivity|]. right. exists h, c'. split; [reflexivity|]. apply Forall_app in HP as [_ HP]. inversion HP as [|? ? Hh _]; subst.
    destruct R2 as [|r2 R2]; [cbn in E2; discriminate|]. cbn [linked] in HK. destruct HK as [(_ & _ & K) _]. cbn [fst] in K. rewrite En in K. destruct K as [K1 K2]. rewrite wid2_pc by exact Hh. destruct Hh as (_ & _ & _ & Hw). destruct K2 as [K2|(p & q & K2 & K3)]; [cbn [pc snd]; lia|].
    cbn [flat_map map] in E2. unfold flat1 at 1 in E2. rewrite K2 in E2. cbn [map app] in E2. injection E2 as E2 _. rewrite E2. lia.
  - cbn [app] in *. unfold flat in Hf. cbn [flat_map] in Hf. fold (flat (R1 ++ (l, ps) :: R2)) in Hf. symmetry in Hf. apply map_eq_app in Hf as (X1 & X2 & E & E1 & E2). apply map_eq_app in E as (b1 & c1 & Eg & Eb & Ec). subst gs0. symmetry in E1. apply flat1_some in E1 as [En Ep].
    inversion HL as [|? ? Hr HL']; subst. apply Forall_app in HP as [HP1 HP2]. cbn [linked] in HK. destruct HK as [K HK].
    destruct (R1 ++ (l, ps) :: R2) as [|r' R'] eqn:ER; [destruct R1; discriminate|].
    destruct K as (Kx & Ks & K). rewrite En in K. destruct K as [K1 K2].
    specialize (IH l ps R2 0 c1). rewrite ER in IH. destruct (IH (eq_sym E2) Kx HL' HK HP2) as (a & b & c & Eg & Ea & Eb & Enl & Ecl & Hc).
    exists (b1 ++ a), b, c. split; [rewrite Eg, <- app_assoc; reflexivity|]. split.
    { unfold flat. cbn [flat_map]. fold (flat R1). rewrite Ea, !map_app. f_equal. unfold flat1. rewrite En, app_nil_r. rewrite Ep. reflexivity. }
    split; [exact Eb|]. split; [exact Enl|]. split; [|exact Hc]. cbn [length click_rows].
    rewrite (take_stop b1); [rewrite Ecl, bytes_app; lia|exact HP1| |].
    + destruct Hr as (_ & Hr & Hr2). rewrite Ep in Hr. lia.
    + destruct c1 as [|h c1]; [left; reflexivity|]. right. exists h, c1. split; [reflexivity|]. inversion HP2 as [|? ? Hh _]; subst. destruct Hr as (_ & Hr & Hr2). rewrite Ep in Hr. rewrite wid2_pc by exact Hh. destruct Hh as (_ & _ & _ & Hw).
      destruct K2 as [K2|(p & q & K2 & K3)]; [cbn [pc snd]; lia|]. unfold flat in E2. cbn [flat_map map] in E2. unfold flat1 at 1 in E2. rewrite K2 in E2. cbn [map app] in E2. injection E2 as E2 _. rewrite E2. lia.
Qed.
Lemma bytes_cons g l : bytes (g :: l) = blen (fst g) + bytes l. Proof. change (g :: l) with ([g] ++ l). rewrite bytes_app, bytes_one. reflexivity. Qed.

Variable gl : text -> list cluster.
Variable buffer : text.
Local Notation gs := (gl buffer).
Hypothesis Hcat : concat (map fst gs) = buffer.
Hypothesis Hplain : Forall plainw gs.
Lemma all_plain l : Forall plainw l -> all_pieces nls l = map Some (map pc l).
Proof. intro F. apply aps_plain; (eapply Forall_impl; [|exact F]); intros g (A & B & C & D); [unfold is_plain; rewrite B; lia|exact A]. Qed.

Theorem click_char col rs (R1 : list rowp) l p1 t w p2 R2 x :
  layout W nls gs col rs -> rs = R1 ++ (l, p1 ++ (t, w) :: p2) :: R2 -> l_x l + span p1 <= x < l_x l + span p1 + w ->
  exists pre g post, gs = pre ++ g :: post /\ all_pieces nls pre = flat R1 ++ map Some p1 /\ fst g = t /\ click gl W col buffer x (length R1) = bytes pre.
Proof.
  intros L E Hx. pose proof (lo_all _ _ _ _ _ L) as Ea. pose proof (lo_laid _ _ _ _ _ L) as Hl. pose proof (lo_linked _ _ _ _ _ L) as Hk. pose proof (lo_first _ _ _ _ _ L) as Hh. rewrite E in *. rewrite (all_plain _ Hplain) in Ea.
  destruct (rows_click x R1 l _ R2 col gs Ea Hh Hl Hk Hplain) as (a & b & c & Eg & Ef & Eb & _ & Ecl & _).
  symmetry in Eb. apply eq_sym in Eb. apply map_eq_app in Eb as (b1 & b2 & -> & E1 & E2). destruct b2 as [|g b2]; [discriminate|]. cbn [map] in E2. injection E2 as Et Ew Ep2.
  assert (HP : Forall plainw (a ++ (b1 ++ g :: b2) ++ c)) by (rewrite <- Eg; exact Hplain). apply Forall_app in HP as [HPa HP]. apply Forall_app in HP as [HP _]. apply Forall_app in HP as [HPb HPg]. inversion HPg as [|? ? Hg _]; subst.
  exists (a ++ b1), g, (b2 ++ c). split; [rewrite Eg, <- !app_assoc; reflexivity|]. split; [rewrite aps_app, (all_plain a HPa), (all_plain b1 HPb), Ef; reflexivity|]. split; [reflexivity|].
  unfold click. rewrite Ecl. rewrite <- app_assoc. rewrite (take_stop b1); [|exact HPb|exact (proj1 Hx)|right; exists g, (b2 ++ c); split; [reflexivity|rewrite wid2_pc by exact Hg; exact (proj2 Hx)]].
  cbn [fst]. assert (Hb : blen buffer = bytes gs) by (unfold bytes; rewrite Hcat; reflexivity). rewrite Hb. rewrite Eg. rewrite !bytes_app. lia.
Qed.
Theorem click_end col rs (R1 : list rowp) l ps R2 x :
  layout W nls gs col rs -> rs = R1 ++ (l, ps) :: R2 -> l_lastcol l <= x < W -> click gl W col buffer x (length R1) = l_end l.
Proof.
  intros L E Hx. pose proof (lo_all _ _ _ _ _ L) as Ea. pose proof (lo_laid _ _ _ _ _ L) as Hl. pose proof (lo_linked _ _ _ _ _ L) as Hk. pose proof (lo_first _ _ _ _ _ L) as Hh. pose proof (lo_start _ _ _ _ _ L) as Hs. pose proof (lo_last _ _ _ _ _ L) as (Rz & lz & pz & Ez & Enz & Etz & Ecz & Eez). rewrite E in *. rewrite (all_plain _ Hplain) in Ea.
  destruct (rows_click x R1 l _ R2 col gs Ea Hh Hl Hk Hplain) as (a & b & c & Eg & Ef & Eb & En & Ecl & Hc).
  assert (HP : Forall plainw (a ++ b ++ c)) by (rewrite <- Eg; exact Hplain). apply Forall_app in HP as [HPa HP]. apply Forall_app in HP as [HPb HPc].
  apply Forall_app in Hl as [_ Hl]. inversion Hl as [|? ? (_ & Hlc & _) _]; subst. cbn [fst snd] in Hlc.
  assert (Hb : blen buffer = bytes gs) by (unfold bytes; rewrite Hcat; reflexivity).
  unfold click. rewrite Ecl. rewrite (take_stop b); [|exact HPb|lia|destruct Hc as [Hc|(h & c' & Hc & Hw)]; [left; exact Hc|right; exists h, c'; split; [exact Hc|lia]]].
  cbn [fst]. rewrite Hb, Eg, !bytes_app. replace (Nat.min (bytes a + bytes b) (bytes a + (bytes b + bytes c))) with (bytes a + bytes b) by lia.
  destruct R2 as [|r2 R2].
  - change (R1 ++ [(l, map pc b)]) with (R1 ++ [(l, map pc b)]) in Ez. apply app_inj_tail in Ez as [_ Ez]. injection Ez as <- <-. rewrite Eez, Eg, !bytes_app.
    rewrite flat_app, flat_one in Ea. unfold flat1 in Ea. cbn [fst snd] in Ea. rewrite En, app_nil_r, Ef, Eg, !map_app in Ea. apply app_inv_head in Ea. rewrite <- (app_nil_r (map Some (map pc b))) in Ea at 1. apply app_inv_head in Ea. destruct c; [change (bytes []) with 0; lia|discriminate].
  - assert (Hs2 : start_ok nls gs (flat (R1 ++ [(l, map pc b)])) (l_start (fst r2))). { assert (E2 : R1 ++ (l, map pc b) :: r2 :: R2 = (R1 ++ [(l, map pc b)]) ++ r2 :: R2) by (rewrite <- app_assoc; reflexivity). rewrite E2 in Hs. exact (starts_all nls gs [] _ _ _ Hs). }
    assert (Hk2 : follows W (l, map pc b) r2). { clear - Hk. induction R1 as [|r R1 IH]; cbn [app linked] in Hk; [tauto|]. destruct Hk as [_ Hk]. exact (IH Hk). }
    destruct Hk2 as (_ & Hk2 & _). cbn [fst] in Hk2. rewrite En, Nat.add_0_r in Hk2. rewrite <- Hk2.
    rewrite flat_app, flat_one in Hs2. unfold flat1 in Hs2. cbn [fst snd] in Hs2. rewrite En, app_nil_r, Ef, <- !map_app in Hs2.
    destruct Hs2 as (pre & post & Eg2 & En2 & Hf2).
    assert (HPp : Forall plainw pre /\ Forall plainw post) by (apply Forall_app; rewrite <- Eg2; exact Hplain). destruct HPp as [HPp HPq].
    destruct Hf2 as [Hf2|(g & post' & q & q2 & Ep & Eq & _)].
    + rewrite (all_plain pre HPp) in Hf2. apply map_some_inj in Hf2. rewrite En2.
      assert (Elen : length pre = length (a ++ b)) by (rewrite <- (map_length pc pre), <- Hf2, map_length; reflexivity).
      assert (Epre : pre = a ++ b). { assert (X : pre ++ post = (a ++ b) ++ c) by (rewrite <- Eg2, <- app_assoc; exact Eg). pose proof (f_equal (firstn (length pre)) X) as Y. rewrite firstn_app_l in Y by reflexivity. rewrite Elen in Y. rewrite firstn_app_l in Y by reflexivity. exact Y. }
      rewrite Epre, bytes_app. lia.
    + exfalso. subst post. inversion HPq as [|? ? (A & B & C & D) _]; subst. unfold pieces in Eq. rewrite B in Eq. destruct (fst g) as [|[c0 f0] r]; [congruence|]. destruct (snd g <? 0)%Z eqn:Ez2; [lia|discriminate].
Qed.
End Click.
