(** C72, C73: states that meet the hypotheses of the theorems, and what is false without them. *)
From Verif Require Import Base SmallModel SmallProperties SelModel SelSpec SelProofs SelSteps SelInput SelOrder SelProperties.
Local Open Scope Z_scope.

Fixpoint run (c : cfg) (ks : list (key * option Z)) (s : st) : outcome :=
  match ks with
  | [] => Go s
  | (k, h) :: r => match on_input c k h s with Go s' => run c r s' | o => o end
  end.
Fixpoint inputs_ok (c : cfg) (ks : list (key * option Z)) (s : st) : Prop :=
  match ks with
  | [] => True
  | (k, h) :: r => input_ok c s k h /\ match on_input c k h s with Go s' => inputs_ok c r s' | _ => True end
  end.
Lemma run_reach c : forall ks s s', reach c s -> inputs_ok c ks s -> run c ks s = Go s' -> reach c s'.
Proof.
  induction ks as [|[k h] r IH]; intros s s' R H E; cbn [run inputs_ok] in *; [injection E as <-; exact R|]. destruct H as [H1 H2].
  destruct (on_input c k h s) as [s1| |] eqn:E1; try discriminate. apply (IH s1); auto. eapply r_input; eauto.
Qed.

Definition gE (fit rows : Z) : geom := mkGeom rows 80 2 false 0 fit (repeat 10 (Z.to_nat (Z.max 1 fit))) 2.
Definition sE : st := mkSt (layout (gE 1 0) 0) 0 0 0 false false 0 false false false.
Definition cV : cfg := mkCfg true false 0 0 true.
Definition cH : cfg := mkCfg true true 2 0 true.
Definition opened (c : cfg) (g : geom) (n : Z) : st := match activate c g n false None sE with Some s => s | None => sE end.
Definition at_ (c : cfg) (ks : list key) (s : st) : st := match run c (map (fun k => (k, None)) ks) s with Go s' => s' | _ => sE end.

Lemma gE_ok c fit rows n : 0 <= rows < 32768 -> 1 <= fit <= n -> n < 65536 -> geom_ok c (gE fit rows) n.
Proof.
  intros Hr Hf Hn. unfold geom_ok, gE; cbn [g_height g_rows g_fit g_widths g_pad]. split; [lia|]. split; [lia|]. split.
  { cbn [layout l_rows g_fit]. cbv zeta. rewrite Z.quot_div_nonneg by lia. apply Z.div_lt_upper_bound; [lia|]. nia. }
  split; [intros _; lia|]. split; [|split; [lia|rewrite repeat_length; lia]].
  apply Forall_forall. intros w Hw. apply repeat_spec in Hw. lia.
Qed.
Lemma opened_reach c fit rows n : 0 <= rows < 32768 -> 1 <= fit <= n -> n < 65536 ->
  (exists s, activate c (gE fit rows) n false None sE = Some s) -> reach c (opened c (gE fit rows) n).
Proof. intros Hr Hf Hn [s E]. unfold opened. rewrite E. eapply r_activate with (h := None); [apply gE_ok; eauto|exact Logic.I|exact E]. Qed.

(** 50 matches in four columns of 13 rows, eight of which are visible: the list, then Down ten times, Right, Page Down. *)
Example ex_opened : let s := opened cV (gE 4 12) 50 in
  reach cV s /\ (l_rows (s_lay s), l_vis (s_lay s), s_index s, s_top s, s_disp s, s_latch s, s_car s) = (13, 8, 0, 0, 8, false, true).
Proof. split; [apply opened_reach; try lia; eexists; vm_compute; reflexivity|vm_compute; reflexivity]. Qed.
Example ex_down : let s := at_ cV (repeat k_down 10) (opened cV (gE 4 12) 50) in
  reach cV s /\ (s_index s, s_top s, s_disp s) = (10, 3, 8) /\ cell cV s 7 0 = Some 10 /\ cell cV s 7 3 = Some 49 /\ cell cV s 0 1 = Some 16.
Proof.
  split; [|vm_compute; auto]. eapply run_reach with (ks := map (fun k => (k, None)) (repeat k_down 10)); [apply (proj1 ex_opened)| |vm_compute; reflexivity].
  vm_compute. repeat split.
Qed.
Example ex_keyed : exists s, keyed cV s /\ s_top s = 4 /\ s_disp s = 8 /\ l_rows (s_lay s) = 13 /\ 0 < l_vis (s_lay s).
Proof.
  exists (at_ cV [k_last] (opened cV (gE 4 12) 50)). split; [|vm_compute; repeat split].
  eapply k_input with (s := opened cV (gE 4 12) 50) (k := k_last) (h := None); [|split; exact Logic.I|discriminate|exact Logic.I|vm_compute; reflexivity].
  eapply k_activate with (g := gE 4 12) (n := 50) (x := false) (h := None) (s0 := sE); [apply gE_ok; lia|exact Logic.I|vm_compute; reflexivity].
Qed.
(** Right, after the last column, goes to the next row: here row 12 has only three matches. *)
Example ex_right :
  map (fun n => s_index (at_ cV (repeat k_right n) (opened cV (gE 4 12) 50))) [0; 1; 2; 3; 4; 5]%nat = [0; 13; 26; 39; 1; 14] /\
  s_index (at_ cV [k_last] (opened cV (gE 4 12) 50)) = 49 /\ s_index (at_ cV [k_left] (opened cV (gE 4 12) 50)) = 38 /\
  s_index (at_ cV [k_left; k_right] (opened cV (gE 4 12) 50)) = 0 /\
  map (fun n => s_index (at_ cV (repeat k_pgdn n) (opened cV (gE 4 12) 50))) [1; 2; 3]%nat = [7; 12; 49].
Proof. vm_compute. repeat split. Qed.
Example ex_horizontal :
  map (fun n => s_index (at_ cH (repeat k_down n) (opened cH (gE 4 12) 50))) [0; 1; 2; 12; 13; 14]%nat = [0; 4; 8; 48; 1; 5] /\
  map (fun n => s_top (at_ cH (repeat k_pgdn n) (opened cH (gE 4 12) 50))) [1; 2; 3]%nat = [0; 5; 5] /\
  map (fun n => s_index (at_ cH (repeat k_pgdn n) (opened cH (gE 4 12) 50))) [1; 2; 3; 4]%nat = [20; 40; 48; 49].
Proof. vm_compute. repeat split. Qed.
(** A click in the second column, on the third row shown *)
Example ex_click : let s := at_ cV (repeat k_down 10) (opened cV (gE 4 12) 50) in
  in_column (l_geom (s_lay s)) 1 14 /\ cell cV s 2 1 = Some 18 /\ s_car s = true /\
  s_index (at_ cV [k_mouse left_click 14 2 true 1] s) = 18 /\
  s_index (at_ cV [k_mouse left_click 78 7 true 1] s) = 12 /\ s_top (at_ cV [k_mouse left_click 78 7 true 1] s) = 5.
Proof. cbv zeta. split; [unfold in_column; vm_compute; repeat split; try discriminate; lia|]. vm_compute. repeat split. Qed.
(** Without wraparound, Right from the end of the order goes to the last match and then does nothing. *)
Example ex_stop : let c := mkCfg false false 0 0 true in
  map (fun n => s_index (at_ c (k_pgdn :: k_pgdn :: repeat k_right n) (opened c (gE 4 12) 50))) [0; 1; 2; 3; 4]%nat = [12; 25; 38; 49; 49] /\
  s_latch (at_ c [k_pgdn; k_pgdn; k_right; k_right; k_right] (opened c (gE 4 12) 50)) = true.
Proof. vm_compute. repeat split. Qed.

(** A horizontal list with more columns than matches (fixed column widths, e.g. match.fit_columns off): Down on the last match
    selects a match that does not exist. *)
Theorem selection_valid_refuted : exists c g n s s',
  c_horiz c = true /\ n < Z.max 1 (g_fit g) /\ activate c g n false None sE = Some s /\ on_input c k_down None s = Go s' /\
  s_index s' = 1 /\ exists s'', run c [(k_last, None); (k_down, None)] s = Go s'' /\ s_index s'' = l_count (s_lay s'').
Proof.
  exists cH, (gE 5 30), 3. eexists. eexists. split; [reflexivity|]. split; [reflexivity|]. split; [vm_compute; reflexivity|]. split; [vm_compute; reflexivity|].
  split; [vm_compute; reflexivity|]. eexists. split; vm_compute; reflexivity.
Qed.
(** Up on the first match then selects one before the first. *)
Theorem selection_negative_refuted : exists c g n s s', c_horiz c = true /\ c_wrap c = true /\ n < Z.max 1 (g_fit g) /\
  activate c g n false None sE = Some s /\ on_input c k_up None s = Go s' /\ s_index s' < 0.
Proof. exists cH, (gE 5 30), 3. eexists. eexists. split; [reflexivity|]. split; [reflexivity|]. split; [reflexivity|]. split; [vm_compute; reflexivity|]. split; [vm_compute; reflexivity|]. vm_compute. reflexivity. Qed.

(** After the window gets taller, the list stays scrolled past its end: there is room for all matches and the first is not shown. *)
Definition sL : st := Eval vm_compute in at_ cV [k_last] (opened cV (gE 4 12) 50).
Definition sR : st := Eval vm_compute in on_resize cV (gE 4 16) sL.
Lemma sL_reach : reach cV sL.
Proof. eapply run_reach with (ks := [(k_last, None)]) (s := opened cV (gE 4 12) 50); [apply (proj1 ex_opened)|vm_compute; repeat split|vm_compute; reflexivity]. Qed.
Theorem resize_past_end_refuted : exists c s g s', reach c s /\ geom_ok c g (l_count (s_lay s)) /\ s' = on_resize c g s /\ 0 < l_vis (s_lay s') /\
  Z.max 0 (l_rows (s_lay s') - l_vis (s_lay s')) < s_top s' /\ s_disp s' = l_rows (s_lay s') /\ ~ seen c s' 0.
Proof.
  exists cV, sL, (gE 4 16), sR. split; [exact sL_reach|]. split; [apply gE_ok; cbn; lia|]. split; [vm_compute; reflexivity|].
  split; [reflexivity|]. split; [reflexivity|]. split; [reflexivity|].
  intros (r & k & Hr & Hk & E). unfold cell, major_stride, minor_stride in E. cbn [sR s_top s_lay l_count l_cols l_rows cV c_horiz] in E.
  destruct (50 <=? (4 + r) * 1 + k * 13); [discriminate|]. assert (E2 : (4 + r) * 1 + k * 13 = 0) by congruence. lia.
Qed.

(** In the preview, one click at the bottom of the scroll bar scrolls past the end. *)
Definition cP : cfg := mkCfg true false 0 3 true.
Theorem preview_scrollbar_refuted : exists c s x row s', reach c s /\ s_exp s = false /\ input_ok c s (k_mouse left_click x row true 1) None /\
  on_input c (k_mouse left_click x row true 1) None s = Go s' /\ s_top s' + s_disp s' > l_rows (s_lay s').
Proof.
  exists cP, (opened cP (gE 4 15) 50), 78, 2. eexists.
  split; [apply opened_reach; try lia; eexists; vm_compute; reflexivity|]. split; [vm_compute; reflexivity|]. split; [vm_compute; repeat split; congruence|]. split; vm_compute; reflexivity.
Qed.

(** In the preview, F1 can hide the first matches. *)
Definition cF : cfg := mkCfg true true 0 3 true.
Definition sF : st := Eval vm_compute in at_ cF [k_next; k_next] (opened cF (gE 4 15) 50).
Lemma sF_reach : reach cF sF.
Proof.
  eapply run_reach with (ks := [(k_next, None); (k_next, None)]) (s := opened cF (gE 4 15) 50); [|vm_compute; repeat split|vm_compute; reflexivity].
  apply opened_reach; try lia. eexists. vm_compute. reflexivity.
Qed.
Theorem preview_f1_refuted : exists c s g s', reach c s /\ s_exp s = false /\ input_ok c s (k_f1 (Some g)) None /\
  on_input c (k_f1 (Some g)) None s = Go s' /\ s_exp s' = false /\ s_top s' = 2.
Proof.
  exists cF, sF, (gE 1 15). eexists. split; [exact sF_reach|]. split; [reflexivity|].
  split; [split; [exact Logic.I|]; apply gE_ok; cbn; lia|]. split; [vm_compute; reflexivity|]. split; vm_compute; reflexivity.
Qed.

(** If inserting the first match after typing makes the line several rows taller, Page Down selects a match before the first. *)
Definition cT : cfg := mkCfg true false 2 0 true.
Theorem page_down_negative_refuted : exists c s n g h s1 s2, reach c s /\ geom_ok c g n /\ on_input c (k_type n g) (Some h) s = Go s1 /\
  on_input c k_pgdn None s1 = Go s2 /\ s_index s2 < 0.
Proof.
  exists cT, (opened cT (gE 4 12) 50), 40, (gE 4 12), 8. eexists. eexists.
  split; [apply opened_reach; try lia; eexists; vm_compute; reflexivity|]. split; [apply gE_ok; lia|]. split; [vm_compute; reflexivity|]. split; vm_compute; reflexivity.
Qed.

(** Once the scroll bar has been clicked and the list gets so short that there is none, a click selects in the first column
    whatever is clicked. *)
Definition kS : list (key * option Z) := [(k_mouse left_click 78 0 true 1, None); (k_type 8 (gE 4 12), None)].
Definition sS : st := Eval vm_compute in at_ cV (map fst kS) (opened cV (gE 4 12) 50).
Lemma sS_reach : reach cV sS.
Proof.
  eapply run_reach with (ks := kS) (s := opened cV (gE 4 12) 50); [apply (proj1 ex_opened)| |vm_compute; reflexivity].
  unfold kS. cbn [inputs_ok]. split; [vm_compute; repeat split; congruence|].
  match goal with |- match ?x with _ => _ end => destruct x end; try exact Logic.I.
  split; [split; [exact Logic.I|split; [intros _; apply gE_ok; lia|reflexivity]]|]. match goal with |- match ?x with _ => _ end => destruct x end; exact Logic.I.
Qed.
Theorem stale_scrollbar_refuted : exists c s x col row s' i, reach c s /\ s_car s = false /\ in_column (l_geom (s_lay s)) col x /\ 0 <= row < s_disp s /\
  cell c s row (Z.of_nat col) = Some i /\ on_input c (k_mouse left_click x row true 1) None s = Go s' /\ s_index s' <> i.
Proof.
  exists cV, sS, 14, 1%nat, 1. eexists. exists 3.
  split; [exact sS_reach|].
  split; [reflexivity|]. split; [unfold in_column; cbn; lia|]. split; [cbn; lia|].
  split; [vm_compute; reflexivity|]. split; [vm_compute; reflexivity|]. vm_compute. congruence.
Qed.
